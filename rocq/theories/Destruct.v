(** What the %destructor code frees: everything the value of the symbol owns, except for ten symbols.
    No code of /repo. *)
From Verif Require Export ActTac DestructTable.
From Coq Require Import ZifyBool ZifyNat ZifyN.
Local Open Scope nat_scope.
Set Implicit Arguments.
Unset Strict Implicit.

(** Symbols whose destructor does not free everything. *)
Definition leaky_syms : list N :=
  [S_opt_column_constraints; S_column_constraints; S_update_clause_commalist; S_update_clause;
   S_opt_locking_clause; S_opt_locking_clause_list; S_locking_clause; S_opt_with_clause; S_with_clause; S_with_description_list].
Definition leaky (X : N) : bool := existsb (N.eqb X) leaky_syms.

Definition del_le (X : N) (v : val) : Prop :=
  exists g, frees (yydestruct X v) g /\ (forall x, g x <= ca x v) /\ (leaky X = false -> forall x, g x = ca x v).
Lemma del_le_eq X v : frees (yydestruct X v) (fun x => ca x v) -> del_le X v.
Proof. intro F. exists (fun x => ca x v). split; [exact F|]. split; [intro; lia|reflexivity]. Qed.


Definition kind_ok (X d : N) : bool :=
  leaky X ||
  (if N.eqb d 181 then scalar (symty X)
   else if N.eqb d 182 then N.eqb X S_table_name
   else if N.eqb d 186 then (match symty X with TVec TStr | TOpt (TVec TStr) => true | _ => false end)
   else if N.eqb d 194 then str_ty (symty X)
   else if N.eqb d 195 then (match symty X with TVec t | TOpt (TVec t) => del_ty t | _ => false end)
   else if N.eqb d 203 then N.eqb X S_csv_option
   else del_ty (symty X)).
Lemma kinds_ok : forallb (fun p => kind_ok (fst p) (snd p)) destructors = true.
Proof. vm_compute. reflexivity. Qed.
Definition destructor (X : N) : option N := option_map snd (find (fun p => N.eqb (fst p) X) destructors).
Lemma rest_scalar : forallb (fun p => scalar (snd p) || match destructor (fst p) with Some _ => true | None => false end) symbol_types = true.
Proof. vm_compute. reflexivity. Qed.

Lemma vec_del v t : wt v (TVec t) -> del_ty t = true -> frees (l <- velems v ;; del_all l ;; del_block v) (fun x => ca x v).
Proof.
  intros W D. apply wt_vec_inv in W as (a & l & -> & W). cbn [velems]. 
  assert (F : frees (check a ;; (del_all l ;; del_block (VVec a l))) (fun x => cas x l + ind a x)).
  { apply frees_check; [rewrite ind_refl; lia|]. apply frees_seq; [eapply del_all_frees; eassumption|apply frees_release]. }
  eapply frees_ext with (h := fun x => ca x (VVec a l)) in F; [|intro x; rewrite ca_vec; lia].
  intros e f H. destruct (F e f H) as (e' & E & R). exists e'. split; [|exact R]. unfold bind, ret in *.
  destruct (check a e); auto.
Qed.
Lemma destruct_leaky X v : leaky X = true -> wt v (symty X) -> del_le X v.
Proof.
  intros L W. assert (G : forall g, frees (yydestruct X v) g -> (forall x, g x <= ca x v) -> del_le X v).
  { intros g F G. exists g. split; [exact F|]. split; [exact G|]. congruence. }
  apply existsb_exists in L as (Y & I & E). apply N.eqb_eq in E as <-.
  unfold leaky_syms in I. cbn [In] in I.
  assert (VD : forall (t : ty), wt v (TOpt (TVec t)) -> v = VNull \/ exists a l, v = VVec a l).
  { intros t WV. apply wt_opt_inv in WV as [->|WV]; [now left|]. apply wt_vec_inv in WV as (a & l & -> & _). eauto. }
  assert (DV : forall a l, v = VVec a l -> yydestruct X v = del v -> del_le X v).
  { intros a l -> E. apply (G (ind a)); [rewrite E; apply del_vec_frees|]. intro x. rewrite ca_vec. lia. }
  assert (DO : forall s, wt v (TObj [s]) -> forallb (fun p => match dtor_how (fst (shape_def s)) (fst p) with HNone => true | _ => false end) (snd (shape_def s)) = true ->
                         yydestruct X v = del v -> del_le X v).
  { intros s WV A E. apply wt_obj_inv in WV as (a & s' & fs & EV & [<-|[]] & WF). apply (G (ind a)).
    - rewrite E, EV. apply del_plain_frees. clear -WF A. induction WF; [reflexivity|]. cbn [forallb fst] in *.
      apply andb_prop in A as [A1 A2]. rewrite A1. auto.
    - intro x. rewrite EV, ca_obj. lia. }
  repeat (destruct I as [<-|I]); [..|destruct I].
  - exact (DO YCCons W eq_refl eq_refl).
  - exact (DO YCCons W eq_refl eq_refl).
  - change (wt v (TVec (TObj [YUpd]))) in W. apply wt_vec_inv in W as (a & l & -> & W).
    assert (F : exists g, frees (del_all l) g /\ forall x, g x <= cas x l).
    { clear -W. induction l as [|y l IH]; [exists (fun _ => 0); split; [apply frees_ret; reflexivity|intro; cbn; lia]|].
      apply wtl_cons_inv in W as [WY W]. destruct (IH W) as (g & F & L). apply wt_obj_inv in WY as (b & s & fs & -> & [<-|[]] & WF).
      exists (fun x => ind b x + g x). split.
      - cbn [del_all]. apply frees_seq; [|exact F]. apply del_plain_frees. 
        repeat match goal with W : wts _ _ |- _ => inversion W; subst; clear W end. reflexivity.
      - intro x. cbn [cas]. rewrite ca_obj. specialize (L x). lia. }
    destruct F as (g & F & L). apply (G (fun x => g x + ind a x)).
    + change (yydestruct S_update_clause_commalist (VVec a l)) with (l' <- velems (VVec a l) ;; del_all l' ;; del_block (VVec a l)).
      assert (F2 : frees (check a ;; (del_all l ;; del_block (VVec a l))) (fun x => g x + ind a x)).
      { apply frees_check; [rewrite ind_refl; lia|]. apply frees_seq; [exact F|apply frees_release]. }
      intros e f H. destruct (F2 e f H) as (e' & E & R). exists e'. split; [|exact R]. unfold velems, bind, ret in *.
      destruct (check a e); auto.
    + intro x. rewrite ca_vec. specialize (L x). lia.
  - exact (DO YUpd W eq_refl eq_refl).
  - destruct (VD _ W) as [->|(a & l & E)]; [|exact (DV a l E eq_refl)]. apply (G (fun _ => 0)); [apply frees_ret; reflexivity|intro; lia].
  - apply wt_some in W. destruct (VD _ W) as [->|(a & l & E)]; [|exact (DV a l E eq_refl)]. apply (G (fun _ => 0)); [apply frees_ret; reflexivity|intro; lia].
  - exact (DO YLock W eq_refl eq_refl).
  - destruct (VD _ W) as [->|(a & l & E)]; [|exact (DV a l E eq_refl)]. apply (G (fun _ => 0)); [apply frees_ret; reflexivity|intro; lia].
  - apply wt_some in W. destruct (VD _ W) as [->|(a & l & E)]; [|exact (DV a l E eq_refl)]. apply (G (fun _ => 0)); [apply frees_ret; reflexivity|intro; lia].
  - apply wt_some in W. destruct (VD _ W) as [->|(a & l & E)]; [|exact (DV a l E eq_refl)]. apply (G (fun _ => 0)); [apply frees_ret; reflexivity|intro; lia].
Qed.
(** Every %destructor. *)
Lemma destruct_ok X v : wt v (symty X) -> del_le X v.
Proof.
  intro W. destruct (leaky X) eqn:LX; [apply destruct_leaky; assumption|].
  apply del_le_eq. unfold yydestruct. destruct (find (fun p => N.eqb (fst p) X) destructors) as [[X' d]|] eqn:F.
  - apply find_some in F as [I E]. cbn [fst] in E. apply N.eqb_eq in E as ->.
    pose proof kinds_ok as K. rewrite forallb_forall in K. specialize (K _ I). cbn [fst snd] in K. clear I.
    unfold kind_ok in K. rewrite LX in K. cbn [orb] in K.
    destruct (N.eqb d 181); [apply frees_ret; eapply scalar_ca; eassumption|].
    destruct (N.eqb d 182).
    { apply N.eqb_eq in K as ->. change (wt v (TRec [(F_schema, TOpt TStr); (F_name, TStr)])) in W.
      apply wt_rec_inv in W as (fs & -> & W).
      inversion W as [|? s ? ? ? W1 W2]; subst. inversion W2 as [|? n ? ? ? W3 W4]; subst. inversion W4; subst.
      assert (F : frees (free_ n ;; free_ s) (fun x => ca x n + ca x s)).
      { apply frees_seq; apply free_frees; [eapply (@str_ty_owned TStr)|eapply (@str_ty_owned (TOpt TStr))]; (reflexivity || eassumption). }
      eapply frees_ext with (h := fun x => ca x (VRec [(F_schema, s); (F_name, n)])) in F; [|intro x; rewrite ca_rec; cbn [caf]; lia].
      intros e f H. destruct (F e f H) as (e' & E & R). exists e'. split; [|exact R]. revert E. clear -W1 W3.
      apply wt_str_inv in W3 as (b & t & ->). apply wt_opt_inv in W1 as [->|W1]; [exact (fun H => H)|]. apply wt_str_inv in W1 as (c & u & ->). exact (fun H => H). }
    destruct (N.eqb d 186).
    { apply free_vec_frees. destruct (symty X) as [| | | | | |? ?|t|t|l|l]; try discriminate K.
      - destruct t as [| | | | | |? ?|t|t|l|l]; try discriminate K. destruct t; try discriminate K.
        apply wt_opt_inv in W as [->|W]; [exact I|]. apply wt_vec_inv in W as (a & l & -> & W). 
        cbn. clear -W. induction l as [|y l IH]; constructor; apply wtl_cons_inv in W as [W1 W2]; [|auto]. apply wt_str_inv in W1 as (? & ? & ->). exact I.
      - destruct t; try discriminate K. apply wt_vec_inv in W as (a & l & -> & W). 
        cbn. clear -W. induction l as [|y l IH]; constructor; apply wtl_cons_inv in W as [W1 W2]; [|auto]. apply wt_str_inv in W1 as (? & ? & ->). exact I. }
    destruct (N.eqb d 194); [apply free_frees; eapply str_ty_owned; eassumption|].
    destruct (N.eqb d 195).
    { assert (V : forall t, wt v (TVec t) -> del_ty t = true -> frees match v with VNull => ret tt | _ => l <- velems v ;; del_all l ;; del_block v end (fun x => ca x v)).
      { intros t WV D. pose proof (vec_del WV D) as F. apply wt_vec_inv in WV as (a & l & -> & _). exact F. }
      destruct (symty X) as [| | | | | |? ?|t|t|l|l]; try discriminate K.
      - destruct t as [| | | | | |? ?|t|t|l|l]; try discriminate K. apply wt_opt_inv in W as [->|W]; [apply frees_ret; reflexivity|]. eapply V; eassumption.
      - eapply V; eassumption. }
    destruct (N.eqb d 203).
    { apply N.eqb_eq in K as ->. change (wt v (TObj [YPairCsv])) in W. apply wt_obj_inv in W as (a & s & fs & -> & [<-|[]] & W).
      cbn in W. inversion W as [|? k ? ? ? W1 W2]; subst. inversion W2 as [|? n ? ? ? W3 W4]; subst. inversion W4; subst.
      assert (F : frees (check a ;; (free_ n ;; del_block (VObj a CPairCsv [(F_first, k); (F_second, n)]))) (fun x => ca x n + ind a x)).
      { apply frees_check; [rewrite ind_refl; lia|]. apply frees_seq; [apply free_frees, (@str_ty_owned TStr); [reflexivity|assumption]|apply frees_release]. }
      eapply frees_ext with (h := fun x => ca x (VObj a CPairCsv [(F_first, k); (F_second, n)])) in F.
      2:{ intro x. rewrite ca_obj. cbn [caf]. apply wt_enum_inv in W1 as (i & -> & _). cbn [ca]. lia. }
      intros e f H. destruct (F e f H) as (e' & E & R). exists e'. split; [|exact R]. revert E. clear -W3.
      apply wt_str_inv in W3 as (b & t & ->). unfold bind, getf, ret. unfold bind. destruct (check a e); exact (fun H => H). }
    eapply del_frees; eassumption.
  - apply frees_ret. eapply scalar_ca; [|exact W]. unfold symty.
    destruct (find (fun p => N.eqb (fst p) X) symbol_types) as [[X' t]|] eqn:FS; [|reflexivity].
    apply find_some in FS as [I E]. cbn [fst] in E. apply N.eqb_eq in E as ->.
    pose proof rest_scalar as K. rewrite forallb_forall in K. specialize (K _ I). cbn [fst snd] in K. unfold destructor in K. rewrite F in K.
    cbn [option_map] in K. rewrite orb_false_r in K. exact K.
Qed.
