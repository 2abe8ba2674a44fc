(** Which statements are made by CREATE TABLE t (columns).  No code of /repo. *)
From Verif Require Import Stale Complete.
From Coq Require Import ZifyBool ZifyNat ZifyN.
Local Open Scope nat_scope.
Set Implicit Arguments.
Unset Strict Implicit.

(** A CREATE TABLE statement with a list of columns. *)
Definition makes_table (v : val) : bool :=
  match v with VObj _ CCreateStatement fs => match lookup F_columns fs with Some (VVec _ _) => true | _ => false end | _ => false end.

Definition others : list N :=
  [S_select_statement; S_select_within_set_operation; S_select_within_set_operation_no_parentheses; S_select_with_paren; S_select_no_paren; S_select_clause;
   S_prepare_statement; S_show_statement; S_import_statement; S_export_statement; S_insert_statement; S_delete_statement; S_truncate_statement; S_update_statement;
   S_drop_statement; S_alter_statement; S_execute_statement; S_transaction_statement].
Definition ones : list N := [S_create_statement; S_preparable_statement; S_statement].
Definition create_class (v : val) : bool := match v with VObj _ CCreateStatement _ => true | _ => false end.
Definition ok (X : N) (t : tree) (v : val) : Prop :=
  (existsb (N.eqb X) others = true -> create_class v = false) /\
  (existsb (N.eqb X) ones = true -> makes_table v = negb (no56 t)) /\
  (X = S_statement_list -> existsb makes_table (elems v) = negb (no56 t)).
Fixpoint oks (Xs : list N) (ts : list tree) (vs : list val) : Prop :=
  match Xs, ts, vs with X :: Xs', t :: ts', v :: vs' => ok X t v /\ oks Xs' ts' vs' | [], [], [] => True | _, _, _ => False end.
Lemma makes_create v : create_class v = false -> makes_table v = false.
Proof. destruct v; try reflexivity. destruct c; try reflexivity. discriminate. Qed.
Lemma create_with l v : create_class (with_ l v) = create_class v.
Proof. destruct v; reflexivity. Qed.
Lemma look_upds l : forall fs, forallb (fun p => negb (fld_beq F_columns (fst p))) l = true -> lookup F_columns (upds l fs) = lookup F_columns fs.
Proof.
  induction l as [|[f x] l IH]; intros fs H; [reflexivity|]. cbn [forallb fst] in H. apply andb_prop in H as [H1 H2]. cbn [upds]. rewrite IH by exact H2.
  rewrite lookup_update. destruct (fld_beq f F_columns) eqn:Q; [|reflexivity]. apply fld_beq_eq in Q. subst f. discriminate H1.
Qed.
Lemma makes_with l v : forallb (fun p => negb (fld_beq F_columns (fst p))) l = true -> makes_table (with_ l v) = makes_table v.
Proof. intro H. destruct v; try reflexivity. cbn [with_ makes_table]. now rewrite look_upds. Qed.
Lemma others_rules : forallb (fun p => if existsb (N.eqb (fst (snd p))) others then existsb (N.eqb (fst p))
  [7; 26; 27; 28; 31; 33; 34; 35; 36; 50; 51; 52; 53; 54; 104; 105; 106; 107; 110; 113; 114; 115; 116; 119; 123; 124; 125; 126; 127; 128; 129; 130; 131; 132; 133; 140]%N else true) grammar = true.
Proof. vm_compute. reflexivity. Qed.
Lemma ones_rules : forallb (fun p => if existsb (N.eqb (fst (snd p))) (S_statement_list :: ones) then existsb (N.eqb (fst p))
  [3; 4; 5; 6; 7; 8; 9; 10; 11; 12; 13; 14; 15; 16; 17; 18; 19; 55; 56; 57; 58; 59]%N else true) grammar = true.
Proof. vm_compute. reflexivity. Qed.
Lemma no56_below X t : derives X t -> existsb (N.eqb X) above56 = false -> no56 t = true.
Proof. intros D A. destruct (no56 t) eqn:E; [reflexivity|]. rewrite (derives_above D E) in A. discriminate A. Qed.
Ltac rules H := cbn [existsb] in H; rewrite ?orb_true_iff in H; repeat match type of H with _ \/ _ => destruct H as [H|H] | false = true => discriminate H end; apply N.eqb_eq in H; subst.
Ltac parts IH := repeat match type of IH with oks (_ :: _) ?ts ?vs => is_var ts; destruct ts as [|? ts]; [destruct IH|]; destruct vs as [|? vs]; [destruct IH|]; let O := fresh "O" in destruct IH as [O IH] end;
  match type of IH with oks [] ?ts ?vs => destruct ts; [|destruct IH]; destruct vs; [|destruct IH] end.
Ltac subtrees DL := repeat match type of DL with derives_list (_ :: _) _ => let D1 := fresh "D" in let D2 := fresh "DL" in inversion DL as [|? ? ? ? D1 D2]; clear DL; subst; rename D2 into DL end.
Ltac below := repeat match goal with D : derives ?X ?t |- context [no56 ?t] => rewrite (@no56_below X t D eq_refl) end.
Lemma makes_ok X t : derives X t -> forall k v k', sem t k = Some (v, k') -> ok X t v.
Proof.
  intro D. revert X t D. apply (derives_mind (fun X t _ => forall k v k', sem t k = Some (v, k') -> ok X t v) (fun Xs ts _ => forall k vs k', sems ts k = Some (vs, k') -> oks Xs ts vs)).
  - intros tk k v k' E. assert (K : forallb (fun X => N.ltb 198 X) (S_statement_list :: others ++ ones) = true) by (vm_compute; reflexivity).
    assert (LT : (sym_of tk < 199)%N) by apply Complete.sym_small. rewrite forallb_forall in K.
    split; [|split].
    + intro Q. apply existsb_exists in Q as (Y & IY & EY). apply N.eqb_eq in EY. subst Y. specialize (K _ ltac:(right; apply in_app_iff; left; exact IY)). lia.
    + intro Q. apply existsb_exists in Q as (Y & IY & EY). apply N.eqb_eq in EY. subst Y. specialize (K _ ltac:(right; apply in_app_iff; right; exact IY)). lia.
    + intro Q. specialize (K S_statement_list ltac:(now left)). rewrite <- Q in K. lia.
  - intros r lhs rhs ts P DL IH k v k' E. rewrite sem_node in E. destruct (sems ts k) as [[vs k3]|] eqn:ES; [|discriminate E]. specialize (IH _ _ _ ES). clear ES. destruct (asem r k3 vs) as [v0|] eqn:EA; [|discriminate E]. injection E as <- _.
    pose proof (production_In P) as PI. pose proof others_rules as K1. rewrite forallb_forall in K1. specialize (K1 _ PI). pose proof ones_rules as K2. rewrite forallb_forall in K2. specialize (K2 _ PI). cbn [fst snd] in K1, K2. clear PI.
    split; [|split].
    + intro Q. rewrite Q in K1. clear K2 Q. rules K1; vm_compute in P; injection P as <- <-;
      parts IH. 
      all: cbv beta iota zeta delta [asem nth Nat.pred] in EA; try discriminate EA; injection EA as <-; unfold set_op; rewrite ?create_with; try reflexivity.
      all: solve [match goal with H : ok _ _ ?v |- create_class ?v = false => apply (proj1 H); reflexivity end].
    + intro Q. assert (Q2 : existsb (N.eqb lhs) (S_statement_list :: ones) = true) by (cbn [existsb]; cbn [existsb] in Q; rewrite Q; apply orb_true_r). rewrite Q2 in K2. clear K1 Q2. rules K2; vm_compute in P; injection P as <- <-;
      try discriminate Q; clear Q;
      parts IH.
      all: cbv beta iota zeta delta [asem nth Nat.pred] in EA; try (match type of EA with (if ?x then _ else _) = _ => destruct x end); try discriminate EA; injection EA as <-.
      all: subtrees DL; cbn [no56 forallb]; below; rewrite ?makes_with by reflexivity; cbn [N.eqb Pos.eqb negb andb]; rewrite ?andb_true_r; rewrite ?negb_involutive.
      all: first [reflexivity | match goal with H : ok _ _ ?v |- makes_table ?v = negb _ => apply (proj1 (proj2 H)); reflexivity | H : ok _ _ ?v |- makes_table ?v = _ => apply makes_create, (proj1 H); reflexivity end].
    + intros ->. assert (Q2 : existsb (N.eqb S_statement_list) (S_statement_list :: ones) = true) by reflexivity. rewrite Q2 in K2. clear K1 Q2. rules K2; vm_compute in P; try discriminate P; injection P as <-; parts IH.
      all: cbv beta iota zeta delta [asem nth Nat.pred] in EA; injection EA as <-; subtrees DL; cbn [no56 forallb]; below; cbn [N.eqb Pos.eqb negb andb]; rewrite ?andb_true_r.
      * unfold vec. cbn [elems existsb]. rewrite orb_false_r, makes_with by reflexivity. apply (proj1 (proj2 O)). reflexivity.
      * unfold snoc, vec. cbn [elems]. rewrite existsb_app. cbn [existsb]. rewrite orb_false_r, makes_with by reflexivity. rewrite (proj2 (proj2 O) eq_refl), (proj1 (proj2 O1) eq_refl). now rewrite negb_andb.
  - intros k vs k' E. cbn in E. injection E as <- _. exact I.
  - intros X Xs t ts D IH DL IHL k vs k' E. cbn [sems] in E. destruct (sem t k) as [[v k1]|] eqn:E1; [|discriminate E]. destruct (sems ts k1) as [[ws k2]|] eqn:E2; [|discriminate E]. injection E as <- _. split; [eapply IH; exact E1|eapply IHL; exact E2].
Qed.
Theorem statements_56 tl k l k' : derives S_statement_list tl -> sem tl k = Some (VVec 0 l, k') -> existsb makes_table l = negb (no56 tl).
Proof. intros D E. exact (proj2 (proj2 (makes_ok D E)) eq_refl). Qed.
Lemma makes_erase v : makes_table (erase v) = makes_table v.
Proof.
  destruct v as [| | | | | | |a c fs| |]; try reflexivity. cbn [erase makes_table]. destruct c; try reflexivity. unfold erase_obj. change (param_index CCreateStatement _) with (@None Z). cbn iota.
  induction fs as [|[f y] fs IH]; [reflexivity|]. cbn [lookup]. destruct (fld_beq F_columns f) eqn:Q; [|exact IH]. apply fld_beq_eq in Q. subst f. destruct y; reflexivity.
Qed.
