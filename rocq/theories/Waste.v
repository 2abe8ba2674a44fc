(** What error recovery does not free, exactly.  The first part is the specification used by C62; no code of /repo. *)
From Verif Require Import Script PropParse PropError Frame PropAccess2 Left Complaint Cause.
From Verif Require Import Inv InvStep InvRun Abs Prec.
From Coq Require Import ZifyBool ZifyNat ZifyN.
Local Open Scope nat_scope.
Set Implicit Arguments.
Unset Strict Implicit.

(** ** The account *)
(** The number of blocks of a value: one for every string, object and vector. *)
Fixpoint nblocks (v : val) : nat :=
  match v with
  | VStr _ _ => 1
  | VObj _ _ fs => S ((fix go (fs : list (fld * val)) := match fs with [] => 0 | (_, y) :: r => nblocks y + go r end) fs)
  | VVec _ l => S ((fix go (l : list val) := match l with [] => 0 | y :: r => nblocks y + go r end) l)
  | VRec fs => (fix go (fs : list (fld * val)) := match fs with [] => 0 | (_, y) :: r => nblocks y + go r end) fs
  | _ => 0
  end.
(** Pieces of which a failing parse frees the outermost block only (bison_parser.y:145-205: there is no %destructor that goes deeper). *)
Definition shallow : list N :=
  [S_opt_column_constraints; S_column_constraints; S_update_clause; S_opt_locking_clause; S_opt_locking_clause_list; S_locking_clause;
   S_opt_with_clause; S_with_clause; S_with_description_list].
(** How many blocks of a piece, with symbol [X] and meaning [v], a failing parse does not free; of the list of an UPDATE it frees the elements, but not what they refer to. *)
Definition missed (X : N) (v : val) : nat :=
  if N.eqb X S_update_clause_commalist then match v with VVec _ l => list_sum (map (fun y => pred (nblocks y)) l) | _ => 0 end
  else if existsb (N.eqb X) shallow then pred (nblocks v) else 0.
Definition missed_all (Xs : list N) (vs : list val) : nat := list_sum (map (fun p => missed (fst p) (snd p)) (combine Xs vs)).
(** CREATE TABLE t FROM x FILE 'f' with an unknown x: the statement, the table name (and schema) and the file name. *)
Definition spilt (r : N) (vs : list val) : nat := if N.eqb r 55 then 1 + nblocks (nth 3 vs VNull) + nblocks (nth 7 vs VNull) else 0.

(** ** Weights *)
Fixpoint nblocksf (fs : list (fld * val)) : nat := match fs with [] => 0 | (_, y) :: r => nblocks y + nblocksf r end.
Fixpoint nblocksl (l : list val) : nat := match l with [] => 0 | y :: r => nblocks y + nblocksl r end.
Lemma nblocks_obj a c fs : nblocks (VObj a c fs) = S (nblocksf fs).
Proof. reflexivity. Qed.
Lemma nblocks_rec fs : nblocks (VRec fs) = nblocksf fs.
Proof. reflexivity. Qed.
Lemma nblocks_vec a l : nblocks (VVec a l) = S (nblocksl l).
Proof. reflexivity. Qed.
Lemma lb_ext f g n m : lost_blocks f n -> (forall x, g x = f x) -> m = n -> lost_blocks g m.
Proof. intros L E ->. eapply lost_blocks_ext; [exact L|intro; symmetry; apply E|reflexivity]. Qed.
Lemma nblocks_blocks v : lost_blocks (fun x => ca x v) (nblocks v).
Proof.
  induction v as [| | | | | | |a c fs H|a l H|fs H] using val_ind2; try exact lost_blocks_none.
  - exact (lost_blocks_one _).
  - assert (L : lost_blocks (fun x => caf x fs) (nblocksf fs)).
    2:{ eapply lb_ext; [exact (lost_blocks_plus (lost_blocks_one a) L)|intro x; apply ca_obj|reflexivity]. }
    induction H as [|[f y] fs H1 H IH]; [exact lost_blocks_none|]. cbn [caf nblocksf]. apply lost_blocks_plus; [exact H1|exact IH].
  - assert (L : lost_blocks (fun x => cas x l) (nblocksl l)).
    2:{ eapply lb_ext; [exact (lost_blocks_plus (lost_blocks_one a) L)|intro x; apply ca_vec|reflexivity]. }
    induction H as [|y l H1 H IH]; [exact lost_blocks_none|]. cbn [cas nblocksl]. apply lost_blocks_plus; [exact H1|exact IH].
  - eapply lb_ext; [|intro x; apply ca_rec|apply nblocks_rec]. induction H as [|[f y] fs H1 H IH]; [exact lost_blocks_none|]. cbn [caf nblocksf]. apply lost_blocks_plus; [exact H1|exact IH].
Qed.
Lemma nblocksf_blocks fs : lost_blocks (fun x => caf x fs) (nblocksf fs).
Proof. pose proof (nblocks_blocks (VRec fs)) as W. eapply lb_ext; [exact W|intro x; symmetry; apply ca_rec|symmetry; apply nblocks_rec]. Qed.
Lemma nblocksl_blocks l : lost_blocks (fun x => cas x l) (nblocksl l).
Proof. induction l as [|y l IH]; [exact lost_blocks_none|]. cbn [cas nblocksl]. apply lost_blocks_plus; [apply nblocks_blocks|exact IH]. Qed.
Lemma nblocks_scalar f v : nblocks (erase_scalar f v) = nblocks v.
Proof. destruct f, v; reflexivity. Qed.
Lemma nblocks_update f x fs : match lookup f fs with Some y => nblocks y = nblocks x | None => True end -> nblocksf (update f x fs) = nblocksf fs.
Proof.
  induction fs as [|[g v] fs IH]; [reflexivity|]. cbn [lookup update]. destruct (fld_beq f g); cbn [nblocksf]; [lia|]. intro H. now rewrite IH.
Qed.
Lemma nblocks_erase v : forall t, wt v t -> nblocks (erase v) = nblocks v.
Proof.
  assert (F : forall fs, Forall (fun p : fld * val => forall t, wt (snd p) t -> nblocks (erase (snd p)) = nblocks (snd p)) fs -> forall ts, wts fs ts -> nblocksf (erase_fields fs) = nblocksf fs).
  { induction 1 as [|[f y] fs H1 H IH]; intros ts W; [reflexivity|]. inversion W as [|? ? ? ? ? WA WB]; subst. cbn [erase_fields map nblocksf fst snd] in *. rewrite nblocks_scalar, (H1 _ WA). f_equal. exact (IH _ WB). }
  induction v as [| | | | | | |a c fs H|a l H|fs H] using val_ind2; intros ty0 W; try reflexivity.
  - destruct (obj_fields W) as (ts & WF & LT). rewrite Poke.erase_obj_def, !nblocks_obj. f_equal. rewrite <- (F fs H ts WF). unfold erase_obj. destruct (param_index c (erase_fields fs)) as [z|] eqn:PI; [|reflexivity].
    apply nblocks_update. assert (c = CExpr) as -> by (destruct c; try discriminate PI; reflexivity). destruct (wts_lookup WF (LT eq_refl)) as (y & LY & WY). apply wt_int_inv in WY as [z0 ->].
    rewrite PrintCong.lookup_erase, LY. reflexivity.
  - destruct (vec_fields W) as (t' & WL). change (erase (VVec a l)) with (VVec 0 (map erase l)). rewrite !nblocks_vec. f_equal. clear W. induction H as [|y l H1 H IH]; [reflexivity|]. inversion WL as [|? ? ? WA WB]; subst. cbn [map nblocksl]. rewrite (H1 _ WA), (IH WB). reflexivity.
  - destruct (rec_fields W) as (ts & WL). rewrite Poke.erase_rec_def, !nblocks_rec. eapply F; eassumption.
Qed.

(** ** Destructors, exactly *)
Definition wastes (m : M unit) (g : N -> nat) (n : nat) : Prop := exists h w, frees m h /\ (forall x, g x = h x + w x) /\ lost_blocks w n.
Lemma wastes_ret g : (forall x, g x = 0) -> wastes (ret tt) g 0.
Proof. intro Z. exists (fun _ => 0), (fun _ => 0). split; [apply frees_ret; reflexivity|]. split; [exact Z|exact lost_blocks_none]. Qed.
Lemma wastes_seq m1 m2 g1 g2 n1 n2 : wastes m1 g1 n1 -> wastes m2 g2 n2 -> wastes (m1 ;; m2) (fun x => g1 x + g2 x) (n1 + n2).
Proof.
  intros (h1 & w1 & F1 & E1 & L1) (h2 & w2 & F2 & E2 & L2). exists (fun x => h1 x + h2 x), (fun x => w1 x + w2 x). split; [apply frees_seq; assumption|]. split; [intro x; rewrite E1, E2; lia|apply lost_blocks_plus; assumption].
Qed.
Lemma wastes_ext m g g' n n' : wastes m g n -> (forall x, g x = g' x) -> n = n' -> wastes m g' n'.
Proof. intros (h & w & F & E & L) G <-. exists h, w. split; [exact F|]. split; [intro x; rewrite <- G; apply E|exact L]. Qed.
Lemma wastes_run m g n e F : wastes m g n -> heap e (fun x => g x + F x) -> exists e' lost, m e = ROk tt e' /\ same e e' /\ heap e' (fun x => lost x + F x) /\ lost_blocks lost n.
Proof.
  intros (h & w & FR & E & L) H. destruct (FR e (fun x => w x + F x)) as (e' & EQ & H' & S).
  { eapply heap_ext; [exact H|]. intro x. cbn beta. rewrite E. lia. }
  exists e', w. auto.
Qed.
Lemma wastes_frees m g : frees m g -> wastes m g 0.
Proof. intro F. exists g, (fun _ => 0). split; [exact F|]. split; [intro; lia|exact lost_blocks_none]. Qed.
Lemma shallow_missed X v : existsb (N.eqb X) shallow = true -> missed X v = pred (nblocks v).
Proof.
  intro S. unfold missed. rewrite S. destruct (N.eqb_spec X S_update_clause_commalist) as [->|_]; [discriminate S|reflexivity].
Qed.
Lemma destruct_exact X v : wt v (symty X) -> wastes (yydestruct X v) (fun x => ca x v) (missed X (erase v)).
Proof.
  intro W. destruct (leaky X) eqn:L.
  2:{ destruct (destruct_ok W) as (g & F & _ & Q). assert (Z : missed X (erase v) = 0).
      { unfold missed. unfold leaky, leaky_syms in L. cbn [existsb] in L. unfold shallow. cbn [existsb]. destruct (N.eqb X S_update_clause_commalist); [rewrite ?orb_true_r in L; discriminate L|].
        repeat match type of L with (false || _)%bool = false => cbn [orb] in L | (?a || _)%bool = false => apply orb_false_iff in L as [-> L] end. reflexivity. }
      rewrite Z. eapply wastes_ext; [apply wastes_frees; exact F|exact (Q L)|reflexivity]. }
  apply existsb_exists in L as (Y & I & E). apply N.eqb_eq in E as <-. unfold leaky_syms in I. cbn [In] in I.
  assert (VD : forall (t : ty), wt v (TOpt (TVec t)) -> v = VNull \/ exists a l, v = VVec a l).
  { intros t WV. apply wt_opt_inv in WV as [->|WV]; [now left|]. apply wt_vec_inv in WV as (a & l & -> & _). eauto. }
  assert (DV : forall a l, v = VVec a l -> yydestruct X v = del v -> existsb (N.eqb X) shallow = true -> wastes (yydestruct X v) (fun x => ca x v) (missed X (erase v))).
  { intros a l -> E SH. rewrite (shallow_missed _ SH), (nblocks_erase W), nblocks_vec. cbn [pred]. exists (ind a), (fun x => cas x l). split; [rewrite E; apply del_vec_frees|]. split; [intro x; apply ca_vec|apply nblocksl_blocks]. }
  assert (DN : v = VNull -> yydestruct X v = ret tt -> existsb (N.eqb X) shallow = true -> wastes (yydestruct X v) (fun x => ca x v) (missed X (erase v))).
  { intros -> E SH. rewrite (shallow_missed _ SH), E. apply wastes_ret. reflexivity. }
  assert (DO : forall s, wt v (TObj [s]) -> forallb (fun p => match dtor_how (fst (shape_def s)) (fst p) with HNone => true | _ => false end) (snd (shape_def s)) = true ->
                         yydestruct X v = del v -> existsb (N.eqb X) shallow = true -> wastes (yydestruct X v) (fun x => ca x v) (missed X (erase v))).
  { intros s WV A E SH. rewrite (shallow_missed _ SH), (nblocks_erase W). apply wt_obj_inv in WV as (a & s' & fs & EV & [<-|[]] & WF). rewrite EV, nblocks_obj. cbn [pred]. exists (ind a), (fun x => caf x fs). split; [|split; [intro x; apply ca_obj|apply nblocksf_blocks]].
    rewrite <- EV, E, EV. apply del_plain_frees. clear -WF A. induction WF; [reflexivity|]. cbn [forallb fst] in *. apply andb_prop in A as [A1 A2]. rewrite A1. auto. }
  repeat (destruct I as [<-|I]); [..|destruct I].
  - exact (DO YCCons W eq_refl eq_refl eq_refl).
  - exact (DO YCCons W eq_refl eq_refl eq_refl).
  - change (wt v (TVec (TObj [YUpd]))) in W. apply wt_vec_inv in W as (a & l & -> & W).
    change (missed S_update_clause_commalist (erase (VVec a l))) with (list_sum (map (fun y => pred (nblocks y)) (map erase l))).
    assert (F : wastes (del_all l) (fun x => cas x l) (list_sum (map (fun y => pred (nblocks y)) (map erase l)))).
    { clear -W. induction l as [|y l IH]; [apply wastes_ret; reflexivity|]. apply wtl_cons_inv in W as [WY W]. cbn [del_all cas map list_sum fold_right]. apply wastes_seq; [|exact (IH W)].
      rewrite (nblocks_erase WY). apply wt_obj_inv in WY as (b & s & fs & -> & [<-|[]] & WF). rewrite nblocks_obj. cbn [pred]. exists (ind b), (fun x => caf x fs). split; [|split; [intro x; apply ca_obj|apply nblocksf_blocks]].
      apply del_plain_frees. repeat match goal with W : wts _ _ |- _ => inversion W; subst; clear W end. reflexivity. }
    change (yydestruct S_update_clause_commalist (VVec a l)) with (l' <- velems (VVec a l) ;; del_all l' ;; del_block (VVec a l)).
    destruct F as (h & w & F & E & L). exists (fun x => h x + ind a x), w. split; [|split; [intro x; rewrite ca_vec, E; lia|exact L]].
    assert (F2 : frees (check a ;; (del_all l ;; del_block (VVec a l))) (fun x => h x + ind a x)).
    { apply frees_check; [rewrite ind_refl; lia|]. apply frees_seq; [exact F|apply frees_release]. }
    intros e f H. destruct (F2 e f H) as (e' & EE & R). exists e'. split; [|exact R]. unfold velems, bind, ret in *. destruct (check a e); auto.
  - exact (DO YUpd W eq_refl eq_refl eq_refl).
  - destruct (VD _ W) as [E|(a & l & E)]; [exact (DN E ltac:(rewrite E; reflexivity) eq_refl)|exact (DV a l E eq_refl eq_refl)].
  - destruct (VD _ (wt_some _ _ W)) as [E|(a & l & E)]; [exact (DN E ltac:(rewrite E; reflexivity) eq_refl)|exact (DV a l E eq_refl eq_refl)].
  - exact (DO YLock W eq_refl eq_refl eq_refl).
  - destruct (VD _ W) as [E|(a & l & E)]; [exact (DN E ltac:(rewrite E; reflexivity) eq_refl)|exact (DV a l E eq_refl eq_refl)].
  - destruct (VD _ (wt_some _ _ W)) as [E|(a & l & E)]; [exact (DN E ltac:(rewrite E; reflexivity) eq_refl)|exact (DV a l E eq_refl eq_refl)].
  - destruct (VD _ (wt_some _ _ W)) as [E|(a & l & E)]; [exact (DN E ltac:(rewrite E; reflexivity) eq_refl)|exact (DV a l E eq_refl eq_refl)].
Qed.

(** ** The stack *)
Definition missed_ent (x : entry) : nat := missed (sym x) (erase (s_val x)).
Definition missed_ents (l : list entry) : nat := list_sum (map missed_ent l).
Lemma entry_wastes x : typed_entry x -> (0 <= s_state x < 656)%Z -> wastes (destruct_entry x) (fun y => ca y (s_val x)) (missed_ent x).
Proof. intros W R. unfold destruct_entry. destruct (get_stos R) as (y & E & EY). rewrite E, EY. exact (destruct_exact W). Qed.
Lemma pop_all_wastes l b : Forall typed_entry l -> Forall (fun x => (0 <= s_state x < 656)%Z) l -> wastes (pop_all (l ++ [b])) (fun y => cas y (map s_val l)) (missed_ents l).
Proof.
  induction 1 as [|x l W WL IH]; intro R; [apply wastes_ret; reflexivity|]. inversion R; subst. cbn [map cas].
  assert (E : pop_all ((x :: l) ++ [b]) = (destruct_entry x ;; pop_all (l ++ [b]))) by (cbn [app pop_all]; destruct (l ++ [b]) eqn:Q; [destruct l; discriminate|reflexivity]).
  rewrite E. apply wastes_seq; [apply entry_wastes; assumption|apply IH; assumption].
Qed.
Lemma pop_error_wastes l b : Forall typed_entry l -> Forall (fun x => (0 <= s_state x < 656)%Z) l -> Forall (fun x => error_shift (s_state x) = Some false) (l ++ [b]) ->
  wastes (pop_error (l ++ [b])) (fun y => cas y (map s_val l)) (missed_ents l).
Proof.
  induction 1 as [|x l W WL IH]; intros R NE.
  - cbn [app pop_error]. inversion NE as [|? ? N1 N2]; subst. rewrite N1. apply wastes_ret; reflexivity.
  - inversion R; subst. inversion NE as [|? ? N1 N2]; subst. cbn [map cas].
    assert (E : pop_error ((x :: l) ++ [b]) = (destruct_entry x ;; pop_error (l ++ [b]))).
    { cbn [app pop_error]. rewrite N1. destruct (l ++ [b]) eqn:Q; [destruct l; discriminate|reflexivity]. }
    rewrite E. apply wastes_seq; [apply entry_wastes; assumption|apply IH; assumption].
Qed.
Lemma drop_look_wastes l lk : look_ok l lk -> wastes (drop_look l) (fun y => lca y l) 0.
Proof.
  intro L. destruct (drop_look_cleans L) as (h & F & _ & E). eapply wastes_ext; [apply wastes_frees; exact F|exact (E eq_refl)|reflexivity].
Qed.
Lemma missed_rev l : missed_ents (rev l) = missed_ents l.
Proof. unfold missed_ents. induction l as [|x l IH]; [reflexivity|]. cbn [rev map list_sum fold_right]. rewrite map_app, list_sum_app, IH. cbn [map list_sum fold_right]. change (fold_right Nat.add 0 (map missed_ent l)) with (list_sum (map missed_ent l)). lia. Qed.
Lemma missed_eq l : missed_ents l = missed_all (map sym l) (map erase (map s_val l)).
Proof. unfold missed_ents, missed_all. induction l as [|x l IH]; [reflexivity|]. cbn [map combine list_sum fold_right fst snd]. f_equal. exact IH. Qed.

(** ** CREATE TABLE .. FROM .. FILE with an unknown file type *)
Lemma typed_nblocks Xs : forall args, typed args Xs -> Forall (fun v => nblocks (erase v) = nblocks v) args.
Proof.
  induction Xs as [|X Xs IH]; intros args T; [apply typed_nil in T; subst; constructor|]. apply typed_cons in T as (v & l & -> & W & T). constructor; [exact (nblocks_erase W)|exact (IH _ T)].
Qed.
Lemma act_55_spilt args e f e' : typed args [S_CREATE; S_TABLE; S_opt_not_exists; S_table_name; S_FROM; S_IDENTIFIER; S_FILE; S_file_path] ->
  heap e (fun x => cas x args + f x) -> act 55 args e = RErr e' ->
  exists lost, heap e' (fun x => ca x (e_msg e') + lost x + f x) /\ lost_blocks lost (spilt 55 (map erase args)).
Proof.
  intros T H EA.
  cut (wp (act 55 args) e (fun _ _ => True) (fun e1 => exists lost, heap e1 (fun x => ca x (e_msg e1) + lost x + f x) /\ lost_blocks lost (spilt 55 (map erase args)))); [unfold wp; now rewrite EA|]. clear EA e'.
  assert (SP : spilt 55 (map erase args) = 1 + nblocks (nth 3 args VNull) + nblocks (nth 7 args VNull)).
  { unfold spilt. cbn [N.eqb Pos.eqb]. assert (WE : forall n, nblocks (nth n (map erase args) VNull) = nblocks (nth n args VNull)); [|now rewrite !WE].
    intro n. change VNull with (erase VNull) at 1. rewrite map_nth. pose proof (typed_nblocks T) as F. rewrite Forall_forall in F. destruct (nth_in_or_default n args VNull) as [I| ->]; [apply F; exact I|reflexivity]. }
  rewrite SP. clear SP. inv_typed T. pose proof (same_refl e) as S0. open_act. steps. destruct (casecmp s (la "tbl")) eqn:E.
  - cbn [negb]. steps. exact I.
  - cbn [negb]. steps.
    match goal with H : heap ?e1 _ |- _ => refine (@wp_yyerror' _ _ _ _ _ _ H _); intros e' Y; destruct (yyerror_eq err_file_type H) as (e2 & Y2 & H2 & RP & RE); rewrite Y in Y2; injection Y2 as <- end.
    exists (fun x => ind a x + ca x (VRec [(F_schema, y); (F_name, y0)]) + ca x v0). split; [hp H2|]. cbn [nth]. apply (lost_blocks_plus (f := fun x => ind a x + ca x (VRec [(F_schema, y); (F_name, y0)]))); [apply (lost_blocks_plus (f := ind a)); [apply lost_blocks_one|]|]; apply nblocks_blocks.
Qed.

(** ** Runs *)
(** No column definition in the text declares the column both NULL and NOT NULL or PRIMARY KEY (such a definition only leaves a message; parsing goes on). *)
Definition columns_consistent (ts : list token) : Prop := forall t k a b, derives S_column_def t -> ts = a ++ yield t ++ b -> sem t k <> None.
(** What a run that ends with an error has lost: [trees] is what the parser had recognised. *)
Definition lost_of (ts0 : list token) (a : astate) (n : nat) : Prop :=
  exists Xs vs k, derives_list Xs (atrees a) /\ sems (atrees a) 0 = Some (vs, k) /\ (exists rest, yields (atrees a) ++ rest = ts0) /\
  ((astep a = ASyntax \/ astep a = AExhausted) /\ n = leak_sum (atrees a) + missed_all Xs vs \/
   exists r lhs rhs us tp Ys ws vs1 k1, production r = Some (lhs, rhs) /\ atrees a = us ++ tp /\ derives_list rhs tp /\ derives_list Ys us /\
     sems us 0 = Some (ws, k1) /\ sems tp k1 = Some (vs1, k) /\ asem r k vs1 = None /\ n = leak_sum (atrees a) + missed_all Ys ws + spilt r vs1).

Section Waste.
Variables (ts0 : list token) (e0 : env) (B : N -> nat).
Hypothesis OK0 : Forall tok_ok ts0.
Hypothesis M0 : e_msg e0 = VNull.
Hypothesis P0 : e_params e0 = [].
Hypothesis CC : columns_consistent ts0.
Lemma waste_step p ents b trees lk lost p' : inv ts0 e0 B p ents b trees lk lost -> e_msg (p_env p) = VNull -> step p = Cont p' ->
  exists ents' b' trees' lk' lost', inv ts0 e0 B p' ents' b' trees' lk' lost' /\ e_msg (p_env p') = VNull /\ astep (abs ents trees lk (p_toks p)) = ACont (abs ents' trees' lk' (p_toks p')).
Proof.
  intros I MN ST. pose proof (inv_step OK0 M0 P0 I) as G. rewrite ST in G. cbn [good] in G. destruct G as (ents' & b' & trees' & lk' & lost' & I' & AS).
  exists ents', b', trees', lk', lost'. split; [exact I'|]. split; [|exact AS].
  destruct (i_phase I') as [EA'|(tl & ts & rest & _ & M' & _)]; [|exact M'].
  pose proof (step_cases (i_ctl I)) as SC. pose proof (i_stk I') as STK'. pose proof (i_stk I) as ISTK.
  inversion SC as
    [HD E | x stk HD E1 E2 E | x stk t ts HD E1 E2 E3 E4 E5 E | x stk s' c v HD E1 E2 E3 E4 E5 E6 E
     | x stk r1 lhs rhs popped below stk' g HD E1 E2 E3 E4 E5 E6 E7 E8 E9 E10 E11 E12 E13 E14 E | x stk HD E1 E2 E3 E4 E].
  - rewrite ST in E. unfold finish in E. match type of E with context [match ?m with _ => _ end] => destruct m end; discriminate.
  - rewrite ST in E. unfold finish in E. match type of E with context [match ?m with _ => _ end] => destruct m end; discriminate.
  - rewrite ST in E. assert (TK : tok_ok t). { rewrite Forall_forall in OK0. apply OK0. rewrite <- (i_toks I), E4, !in_app_iff. right. right. now left. }
    destruct (read_token_ok TK (i_heap I)) as (v & e' & R1 & _ & _ & _ & _ & R2 & _). rewrite R1 in E. injection E as E. subst p'. cbn [p_env]. destruct R2 as (_ & R2 & _). congruence.
  - rewrite ST in E. injection E as E. subst p'. exact MN.
  - rewrite ST in E. destruct (act (Z.to_N r1) (map s_val popped) (set_loc (default_loc popped below) (p_env p))) as [v e'|e'|u] eqn:EACT.
    2:{ unfold finish in E. match type of E with context [match ?m with _ => _ end] => destruct m end; discriminate. }
    2: discriminate E.
    injection E as E. subst p'. cbn [p_stk p_env p_toks] in *. rewrite ISTK in E7. destruct (stack_split E7) as (ents1 & EE & EB). subst ents.
    destruct (Forall2_app_inv_l _ _ (i_ents I)) as (trees1 & tp & F1 & F2 & ->). change (map sym popped = rhs) in E8.
    set (y := mkEnt g v (default_loc popped below)) in *. rewrite EB in STK'. change (y :: rev ents1 ++ [b]) with (rev [y] ++ rev ents1 ++ [b]) in STK'. rewrite app_assoc, <- rev_app_distr in STK'. apply ents_of in STK' as [<- <-].
    assert (SY : sym y = lhs) by exact E10.
    assert (N2 : Z.to_N r1 <> 2%N).
    { intro R2. rewrite R2 in E4. rewrite production_2 in E4. injection E4 as <- _. pose proof (ea_ents EA') as NI. apply Forall_app in NI as [_ NI]. inversion NI as [|? ? NI1 _]; subst. apply NI1. exact SY. }
    assert (N1 : Z.to_N r1 <> 1%N) by lia.
    assert (EA : early e0 (p_env p) (ents1 ++ popped) (trees1 ++ tp)).
    { destruct (i_phase I) as [EA|LT]; [exact EA|]. exfalso. pose proof (i_look I) as ILOOK. destruct (late_top (i_ctl I) ISTK (i_ents I) LT) as (tl & ts & [(_ & x0 & EE & SX)|(k & y0 & x' & _ & _ & _ & PL & EE & SX)]);
        rewrite E1, EE in ISTK; cbn in ISTK; injection ISTK as -> ->; [|congruence]. rewrite SX in E3. exact (input_no_reduce ILOOK E3). }
    set (e := set_loc (default_loc popped below) (p_env p)) in *.
    assert (HE : heap e (fun x => cas x (map s_val popped) + ca x (e_msg e) + (cas x (map s_val ents1) + lca x (p_look p) + cas x (e_stmts e) + lost x + B x))).
    { eapply heap_ext; [exact (heap_loc (default_loc popped below) (i_heap I))|]. intro z. cbn beta. rewrite map_app, cas_app. change (e_msg e) with (e_msg (p_env p)). change (e_stmts e) with (e_stmts (p_env p)). lia. }
    assert (TY : typed (map s_val popped) rhs) by (rewrite <- E8; apply typed_of, (ents_typed F2)).
    assert (MO : msg_ok (e_msg e)) by exact (msg_of M0 (i_msg I)).
    pose proof (@actions_correct _ _ _ E4 N1 N2 _ _ _ TY MO HE) as AC. rewrite EACT in AC. destruct AC as [OW OH OM OMO OS OP OL OLP OPL OCP OSEM OBAD].
    destruct OM as [(_ & EM & _)|(R66 & RP)]; [etransitivity; [exact EM|exact MN]|]. destruct (msg_dec (e_msg e')) as [|NM]; [assumption|exfalso].
    assert (BAD : asem (Z.to_N r1) (List.length (e_plist e)) (map erase (map s_val popped)) = None) by (apply OBAD; intro Q; apply NM; rewrite Q; exact MN).
    pose proof (ea_sem EA MN) as SE. rewrite !map_app in SE. destruct (sems_split SE) as (k1 & S1 & S2); [rewrite !map_length; exact (Forall2_len F1)|].
    assert (D : derives S_column_def (Node 66 tp)).
    { rewrite R66 in E4. assert (EL : lhs = S_column_def) by (vm_compute in E4; injection E4 as E4 _; now rewrite <- E4). rewrite EL in E4. econstructor; [exact E4|rewrite <- E8; apply derives_list_of, F2]. }
    refine (@CC (Node 66 tp) k1 (yields trees1) (lk ++ p_toks p) D _ _).
    + cbn [yield]. rewrite <- (i_toks I), yields_app. change (flat_map yield tp) with (yields tp). now rewrite <- app_assoc.
    + rewrite sem_node, S2. rewrite R66 in BAD. change (e_plist e) with (e_plist (p_env p)) in BAD. rewrite BAD. reflexivity.
  - rewrite ST in E. unfold finish in E. match type of E with context [match ?m with _ => _ end] => destruct m end; discriminate.
Qed.
Lemma all_sems p ents b trees lk lost : inv ts0 e0 B p ents b trees lk lost -> e_msg (p_env p) = VNull -> exists vs k, sems trees 0 = Some (vs, k) /\ missed_all (map sym ents) vs = missed_ents ents.
Proof.
  intros I MN. destruct (i_phase I) as [EA|(tl & ts & rest & -> & _ & RO & R)].
  - eexists _, _. split; [exact (ea_sem EA MN)|]. symmetry. apply missed_eq.
  - destruct (ro_stmts RO) as (l & _ & _ & SE & _). pose proof (i_ents I) as F. inversion F as [|y ? ents' ? EN F2]; subst. pose proof (en_tree EN) as D. pose proof (derives_input D) as SY. rewrite SY in D.
    inversion D as [|? ? ? ? PR DL]; subst. rewrite production_2 in PR. injection PR as <-. inversion DL as [|? ? ? ? D1 DL1]; subst. inversion DL1 as [|? ? ? ? D2 DL2]; subst.
    destruct (Verdict.sem_semi (List.length (e_plist (p_env p))) D2 eq_refl) as (w & SW).
    assert (S2 : sem (Node 2 [tl; ts]) 0 = Some (VUninit, List.length (e_plist (p_env p)))) by (rewrite sem_node; cbn [sems]; rewrite SE, SW; reflexivity).
    destruct R as [->|((k & -> & SK) & _)]; inversion F2 as [|x ? ents'' ? EX F3]; subst.
    + eexists _, _. split; [cbn [sems]; rewrite S2; reflexivity|]. unfold missed_all, missed_ents, missed_ent. cbn [map]. rewrite SY. reflexivity.
    + inversion F3; subst. eexists _, _. split; [cbn [sems]; rewrite S2; cbn [sem]; reflexivity|]. pose proof (derives_leaf (en_tree EX)) as SX. unfold missed_all, missed_ents, missed_ent. cbn [map]. rewrite SY, SX, SK. reflexivity.
Qed.
Lemma end_account p ents b trees lk lost r msg m n : inv ts0 e0 B p ents b trees lk lost -> e_msg (p_env p) = VNull ->
  wastes m (fun x => cas x (map s_val ents) + lca x (p_look p)) n ->
  exists e' w, finish r (yyerror_at (fl (e_lpos (p_env p))) (fc (e_lpos (p_env p))) msg ;; m) (p_env p) = Stop r e' /\ heap e' (fun x => ca x (e_msg e') + cas x (e_stmts e') + w x + B x) /\ lost_blocks w (leak_sum trees + n).
Proof.
  intros I MN W. destruct (yyerror_at_eq (fl (e_lpos (p_env p))) (fc (e_lpos (p_env p))) msg (i_heap I)) as (e1 & E1 & H1 & (R1 & _) & _).
  destruct (@wastes_run m _ n e1 (fun x => ca x (e_msg e1) + (cas x (e_stmts e1) + lost x + B x)) W) as (e2 & w & E2 & ((Q1 & _) & (_ & Q7 & _)) & H2 & L).
  { eapply heap_ext; [exact H1|]. intro x. cbn beta. rewrite MN, R1. cbn [ca]. lia. }
  exists e2, (fun x => lost x + w x). unfold finish, bind. rewrite E1, E2. split; [reflexivity|]. split; [|exact (lost_blocks_plus (i_lost I MN) L)].
  eapply heap_ext; [exact H2|]. intro x. cbn beta. rewrite Q7, Q1. lia.
Qed.
Lemma waste_stop p ents b trees lk lost r e : inv ts0 e0 B p ents b trees lk lost -> e_msg (p_env p) = VNull -> step p = Stop r e -> r <> 0%Z ->
  exists w n, heap e (fun x => ca x (e_msg e) + cas x (e_stmts e) + w x + B x) /\ lost_blocks w n /\ lost_of ts0 (abs ents trees lk (p_toks p)) n.
Proof.
  intros I MN ST R0. pose proof (step_cases (i_ctl I)) as SC. pose proof (i_stk I) as ISTK. pose proof (abs_trees lk (p_toks p) (Forall2_len (i_ents I))) as AT.
  assert (REST : exists rest, yields trees ++ rest = ts0) by (eexists; exact (i_toks I)). pose proof (derives_list_of (i_ents I)) as DL. destruct (all_sems I MN) as (vs & k & SE & MI).
  inversion SC as
    [HD E | x stk HD E1 E2 E | x stk t ts HD E1 E2 E3 E4 E5 E | x stk s' c v HD E1 E2 E3 E4 E5 E6 E
     | x stk r1 lhs rhs popped below stk' g HD E1 E2 E3 E4 E5 E6 E7 E8 E9 E10 E11 E12 E13 E14 E | x stk HD E1 E2 E3 E4 E].
  - destruct (@end_account p ents b trees lk lost 2 err_exhausted (drop_look (p_look p) ;; pop_all (p_stk p)) (missed_ents ents) I MN) as (e' & w & EQ & H & L).
    + rewrite ISTK. eapply wastes_ext.
      * apply wastes_seq; [apply (drop_look_wastes (i_look I))|]. apply pop_all_wastes; [apply Forall_rev', (ents_typed (i_ents I))|eapply ents_rng; rewrite <- ISTK; apply (i_ctl I)].
      * intro y. cbn beta. rewrite map_rev, cas_rev. lia.
      * apply missed_rev.
    + rewrite ST in E. rewrite EQ in E. injection E as _ ->. exists w, (leak_sum trees + missed_ents ents). split; [exact H|]. split; [exact L|]. exists (map sym ents), vs, k. rewrite AT. split; [exact DL|]. split; [exact SE|]. split; [exact REST|]. left. split; [right; exact (abs_exhausted I HD)|congruence].
  - exfalso. rewrite ST in E. unfold finish in E. match type of E with context [match ?m with _ => _ end] => destruct m end; congruence.
  - exfalso. rewrite ST in E. destruct (read_token t (p_env p)); discriminate.
  - exfalso. rewrite ST in E. discriminate.
  - rewrite ST in E. destruct (act (Z.to_N r1) (map s_val popped) _) as [v e1|e1|u] eqn:EACT; try discriminate E.
    assert (N2 : Z.to_N r1 <> 2%N) by (intro E2'; rewrite E2' in EACT; exact (Left.noerr_act2 EACT)).
    assert (EA : early e0 (p_env p) ents trees).
    { destruct (i_phase I) as [EA|LT]; [exact EA|]. exfalso. pose proof (i_look I) as ILOOK. destruct (late_top (i_ctl I) ISTK (i_ents I) LT) as (tl & ts & [(_ & x0 & EE & SX)|(k0 & y0 & x' & _ & _ & _ & PL & EE & SX)]);
        rewrite E1, EE in ISTK; cbn in ISTK; injection ISTK as -> ->; [|congruence]. rewrite SX in E3. exact (input_no_reduce ILOOK E3). }
    pose proof (ea_sem EA MN) as SEM. pose proof (i_heap I) as IHEAP. pose proof (i_lost I MN) as IL. rewrite ISTK in E7. destruct (stack_split E7) as (ents1 & EE & EB). rewrite EE in *.
    destruct (Forall2_app_inv_l _ _ (i_ents I)) as (trees1 & tp & F1 & F2 & ET). rewrite ET in *. change (map sym popped = rhs) in E8.
    rewrite !map_app in SEM. destruct (sems_split SEM) as (k1 & S1 & S2); [rewrite !map_length; exact (Forall2_len F1)|].
    set (e' := set_loc (default_loc popped below) (p_env p)) in *.
    assert (HE : heap e' (fun x => cas x (map s_val popped) + ca x (e_msg e') + (cas x (map s_val ents1) + lca x (p_look p) + cas x (e_stmts e') + lost x + B x))).
    { eapply heap_ext; [exact (heap_loc (default_loc popped below) IHEAP)|]. intro z. cbn beta. rewrite map_app, cas_app. change (e_msg e') with (e_msg (p_env p)). change (e_stmts e') with (e_stmts (p_env p)). lia. }
    assert (TY : typed (map s_val popped) rhs) by (rewrite <- E8; apply typed_of, (ents_typed F2)).
    assert (MO : msg_ok (e_msg e')) by exact (msg_of M0 (i_msg I)).
    assert (N1 : Z.to_N r1 <> 1%N) by lia.
    pose proof (@actions_correct _ _ _ E4 N1 N2 _ _ _ TY MO HE) as AC. rewrite EACT in AC. destruct AC as [EH EM ES' EP ELP].
    assert (BAD : asem (Z.to_N r1) (List.length (e_plist e')) (map erase (map s_val popped)) = None) by (destruct EM as [(_ & _ & Q)|(_ & Q)]; [destruct (Q MN)|exact Q]).
    assert (EH' : exists lost', heap e1 (fun x => ca x (e_msg e1) + lost' x + (cas x (map s_val ents1) + lca x (p_look p) + cas x (e_stmts e') + lost x + B x)) /\ lost_blocks lost' (spilt (Z.to_N r1) (map erase (map s_val popped)))).
    { destruct (N.eq_dec (Z.to_N r1) 55) as [R55|NR].
      - rewrite R55 in *. assert (RQ : rhs = [S_CREATE; S_TABLE; S_opt_not_exists; S_table_name; S_FROM; S_IDENTIFIER; S_FILE; S_file_path]) by (vm_compute in E4; injection E4 as _ E4; now rewrite <- E4).
        rewrite RQ in TY. assert (HE' : heap e' (fun x => cas x (map s_val popped) + (cas x (map s_val ents1) + lca x (p_look p) + cas x (e_stmts e') + lost x + B x))) by (eapply heap_ext; [exact HE|]; intro z; cbn beta; change (e_msg e') with (e_msg (p_env p)); rewrite MN; cbn [ca]; lia).
        exact (act_55_spilt TY HE' EACT).
      - destruct EH as (lost' & EH & LZ). exists lost'. split; [exact EH|]. eapply lb_ext; [exact lost_blocks_none|intro z; apply (LZ NR); exact MN|]. unfold spilt. destruct (N.eqb_spec (Z.to_N r1) 55); [contradiction|reflexivity]. }
    destruct EH' as (lost' & EH' & LB).
    assert (WA : wastes (pop_error (below :: stk') ;; drop_look (p_look p)) (fun x => cas x (map s_val ents1) + lca x (p_look p)) (missed_ents ents1)).
    { rewrite EB. eapply wastes_ext.
      - apply wastes_seq; [|apply (drop_look_wastes (i_look I))]. apply pop_error_wastes.
        + apply Forall_rev', (ents_typed F1).
        + eapply ents_rng. rewrite <- EB. eassumption.
        + rewrite <- EB. apply stack_shifts; eassumption.
      - intro y. cbn beta. rewrite map_rev, cas_rev. lia.
      - rewrite missed_rev. lia. }
    destruct (@wastes_run _ _ _ e1 (fun x => ca x (e_msg e1) + lost' x + cas x (e_stmts e1) + lost x + B x) WA) as (e2 & w & E2' & ((Q1 & _) & (_ & Q7 & _)) & H2 & LW).
    { eapply heap_ext; [exact EH'|]. intro z. cbn beta. rewrite ES'. lia. }
    change (finish 1 (pop_error (below :: stk') ;; drop_look (p_look p)) e1 = Stop r e) in E. unfold finish in E. rewrite E2' in E. injection E as _ ->.
    exists (fun x => lost x + w x + lost' x), (leak_sum (trees1 ++ tp) + missed_ents ents1 + spilt (Z.to_N r1) (map erase (map s_val popped))). split; [|split].
    + eapply heap_ext; [exact H2|]. intro z. cbn beta. rewrite Q7, Q1. lia.
    + apply lost_blocks_plus; [apply lost_blocks_plus; assumption|assumption].
    + eexists _, _, _. rewrite AT. split; [exact DL|]. split; [exact SEM|]. split; [exact REST|]. right. exists (Z.to_N r1), lhs, rhs, trees1, tp, (map sym ents1), (map erase (map s_val ents1)), (map erase (map s_val popped)), k1.
      split; [exact E4|]. split; [reflexivity|]. split; [rewrite <- E8; exact (derives_list_of F2)|]. split; [exact (derives_list_of F1)|]. split; [exact S1|]. split; [exact S2|]. split; [exact BAD|]. now rewrite missed_eq.
  - destruct (@end_account p ents b trees lk lost 1 (syntax_message (s_state x) (tok_of (p_look p))) (pop_error (p_stk p) ;; drop_look (p_look p)) (missed_ents ents) I MN) as (e' & w & EQ & H & L).
    + rewrite ISTK. eapply wastes_ext.
      * apply wastes_seq; [|apply (drop_look_wastes (i_look I))]. apply pop_error_wastes.
        -- apply Forall_rev', (ents_typed (i_ents I)).
        -- eapply ents_rng. rewrite <- ISTK. apply (i_ctl I).
        -- rewrite <- ISTK. apply stack_shifts; [apply (i_ctl I)|]. now rewrite E1.
      * intro y. cbn beta. rewrite map_rev, cas_rev. lia.
      * rewrite missed_rev. lia.
    + rewrite ST in E. rewrite EQ in E. injection E as _ ->. exists w, (leak_sum trees + missed_ents ents). split; [exact H|]. split; [exact L|]. exists (map sym ents), vs, k. rewrite AT. split; [exact DL|]. split; [exact SE|]. split; [exact REST|]. left. split; [left|congruence].
      pose proof (abs_step I E1 HD E2) as AB. rewrite E4 in AB. exact AB.
Qed.
Lemma run_waste n r e : forall p ents b trees lk lost, inv ts0 e0 B p ents b trees lk lost -> e_msg (p_env p) = VNull -> run n p = PRet r e -> r <> 0%Z ->
  exists a w n, asteps (abs ents trees lk (p_toks p)) a /\ heap e (fun x => ca x (e_msg e) + cas x (e_stmts e) + w x + B x) /\ lost_blocks w n /\ lost_of ts0 a n.
Proof.
  induction n as [|n IH]; intros p ents b trees lk lost I MN E R0; [discriminate|]. cbn [run] in E. destruct (step p) as [p'|r' e'|u] eqn:ST; [|injection E as -> ->|discriminate].
  - destruct (waste_step I MN ST) as (ents' & b' & trees' & lk' & lost' & I' & MN' & AS). destruct (IH _ _ _ _ _ _ I' MN' E R0) as (a & w & m & A & Y). exists a, w, m. split; [eapply as_step; eassumption|exact Y].
  - destruct (waste_stop I MN ST R0) as (w & m & Y). exists (abs ents trees lk (p_toks p)), w, m. split; [constructor|exact Y].
Qed.
Theorem yyparse_waste r e : ends_eof ts0 -> heap e0 (fun x => cas x (e_stmts e0) + B x) -> yyparse ts0 e0 = PRet r e -> r <> 0%Z ->
  exists a w n, asteps (astart ts0) a /\ heap e (fun x => ca x (e_msg e) + cas x (e_stmts e) + w x + B x) /\ lost_blocks w n /\ lost_of ts0 a n.
Proof.
  intros EE H E R0. refine (@run_waste (parse_fuel (List.length ts0)) r e (parse_init ts0 e0) [] bottom [] [] (fun _ => 0) _ _ E R0); [now apply inv_init|exact M0].
Qed.
End Waste.
