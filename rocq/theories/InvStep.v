(** One round of the parser keeps the invariant of Inv.v.  No code of /repo. *)
From Verif Require Export Inv.
From Coq Require Import ZifyBool ZifyNat ZifyN.
Local Open Scope nat_scope.
Set Implicit Arguments.
Unset Strict Implicit.

(** ** Grammar facts *)
Lemma hollow_total r lhs rhs k args : production r = Some (lhs, rhs) -> r <> 1%N -> starts_hollow rhs = true -> asem r k args <> None.
Proof.
  intros P N1 H. apply production_In in P.
  assert (L : In r (map fst (filter (fun p => starts_hollow (snd (snd p))) grammar))).
  { apply in_map_iff. exists (r, (lhs, rhs)). split; [reflexivity|]. apply filter_In. split; [exact P|exact H]. }
  clear P H. vm_compute in L.
  repeat (destruct L as [<-|L]; [first [contradiction|discriminate|(unfold asem; repeat match goal with |- context [match ?x with _ => _ end] => destruct x end; discriminate)]|]).
  destruct L.
Qed.
Lemma carrier_up r lhs rhs : production r = Some (lhs, rhs) -> existsb carrier rhs = true -> carrier lhs = true \/ r = 56%N.
Proof.
  assert (A : forallb (fun p => negb (existsb carrier (snd (snd p))) || carrier (fst (snd p)) || N.eqb (fst p) 56) grammar = true) by (vm_compute; reflexivity).
  rewrite forallb_forall in A. intros P H. apply production_In in P. specialize (A _ P). cbn [fst snd] in A. rewrite H in A.
  cbn [negb orb] in A. apply orb_prop in A as [A|A]; [auto|]. right. now apply N.eqb_eq.
Qed.
Lemma input_rule r lhs rhs : production r = Some (lhs, rhs) -> lhs = S_input -> r = 2%N.
Proof.
  assert (A : forallb (fun p => negb (N.eqb (fst (snd p)) S_input) || N.eqb (fst p) 2) grammar = true) by (vm_compute; reflexivity).
  rewrite forallb_forall in A. intros P ->. apply production_In in P. specialize (A _ P). cbn [fst snd] in A. rewrite N.eqb_refl in A.
  cbn [negb orb] in A. now apply N.eqb_eq.
Qed.

Lemma production_2 : production 2 = Some (S_input, [S_statement_list; S_opt_semicolon]).
Proof. vm_compute. reflexivity. Qed.

Lemma derives_leaf X k : derives X (Leaf k) -> X = sym_of k.
Proof. inversion 1. reflexivity. Qed.
Lemma derives_input X ts : derives X (Node 2 ts) -> X = S_input.
Proof. inversion 1 as [|? ? ? ? P ? EQ]. rewrite production_2 in P. congruence. Qed.

(** ** Stacks *)
Lemma stack_split (ents popped : list entry) b below stk' : rev ents ++ [b] = rev popped ++ below :: stk' ->
  exists ents1, ents = ents1 ++ popped /\ below :: stk' = rev ents1 ++ [b].
Proof.
  intro E. destruct (@exists_last _ (below :: stk')) as (l & b' & EL); [discriminate|]. rewrite EL, app_assoc in E.
  apply app_inj_tail in E as [E ->]. exists (rev l). split; [|now rewrite rev_involutive].
  apply (f_equal (@rev entry)) in E. rewrite rev_involutive, rev_app_distr, rev_involutive in E. exact E.
Qed.
Lemma path_bottom l : forall s, path (l ++ [s]) -> s = 0%Z.
Proof.
  induction l as [|x l IH]; intros s P; cbn [app] in P.
  - now inversion P.
  - apply IH. eapply path_app with (a := [x]); [exact P|destruct l; discriminate].
Qed.
Lemma path_all l : path l -> Forall (fun s => (0 <= s < 656)%Z) l.
Proof. induction 1; constructor; auto; [lia|]. eapply preds_nonempty; eassumption. Qed.
Lemma path_nonfinal s l : path (s :: l) -> Forall (fun s => s <> YYFINAL) l.
Proof.
  revert s. induction l as [|x l IH]; intros s P; [constructor|]. inversion P; subst. constructor; [eapply preds_not_final; eassumption|eauto].
Qed.
Lemma ents_typed ents trees : Forall2 ent ents trees -> Forall typed_entry ents.
Proof. induction 1; constructor; [apply (en_type H)|auto]. Qed.
Lemma derives_list_of popped tp : Forall2 ent popped tp -> derives_list (map sym popped) tp.
Proof. induction 1; cbn [map]; constructor; [apply (en_tree H)|auto]. Qed.
Lemma typed_of popped : Forall typed_entry popped -> typed (map s_val popped) (map sym popped).
Proof. unfold typed. induction 1; cbn [map]; constructor; auto. Qed.
Lemma Forall2_len A B (R : A -> B -> Prop) l m : Forall2 R l m -> List.length l = List.length m.
Proof. induction 1; cbn; congruence. Qed.

(** ** Where errors are reported *)
Lemma start_In popped tp below r lhs : Forall2 ent popped tp -> production r = Some (lhs, map sym popped) -> starts_hollow (map sym popped) = false ->
  In (l_fl (default_loc popped below), l_fc (default_loc popped below)) (starts (yields tp)).
Proof.
  intros F P H. destruct popped as [|x popped]; [discriminate|]. inversion F as [|? t ? tp' EN F']; subst.
  cbn [map starts_hollow] in H. destruct (en_loc EN) as (k & rest & Y & L1 & L2); [apply (derives_solid (en_tree EN) H)|].
  cbn [default_loc l_fl l_fc]. rewrite L1, L2. unfold starts. apply in_map_iff. exists k. split; [reflexivity|].
  cbn [yields flat_map]. rewrite Y. now left.
Qed.
Lemma new_loc popped tp below r : Forall2 ent popped tp -> starts_at (default_loc popped below) (Node r tp).
Proof.
  intros F S. destruct F as [|x t popped tp EN F]; [discriminate|]. cbn [solid] in S.
  destruct (en_loc EN S) as (k & rest & Y & L1 & L2). cbn [yield flat_map]. rewrite Y. exists k. eexists. split; [reflexivity|].
  cbn [default_loc l_fl l_fc]. auto.
Qed.
Lemma starts_app a b : starts (a ++ b) = starts a ++ starts b.
Proof. apply map_app. Qed.


(** ** Inputs for which errors lose no memory *)
Definition noisy : list N := [S_WITH; S_FOR; S_UPDATE; S_CREATE; S_lbrack].
Definition is_noisy (X : N) : bool := existsb (N.eqb X) noisy.
Definition clean (ts : list token) : bool := forallb (fun t => negb (is_noisy (sym_of t))) ts.
Lemma clean_app a b : clean (a ++ b) = clean a && clean b.
Proof. apply forallb_app. Qed.
(** States reachable without a noisy terminal. *)
Definition calm_step (l : list Z) : list Z :=
  filter (fun s => memZ s l || (negb (is_noisy (stos s)) && existsb (fun b => memZ b l) (preds s))) all_states.
Definition calm_list : list Z := Eval vm_compute in Nat.iter 30 calm_step [0%Z].
Definition calm_trie : trie unit := Eval vm_compute in fold_right (fun s t => tset t (tidx s) tt) TNil calm_list.
Definition calm (s : Z) : bool := match tget calm_trie (tidx s) with Some _ => true | None => false end.
Definition deferred : list N := [S_opt_with_clause; S_with_clause; S_opt_locking_clause; S_opt_locking_clause_list; S_locking_clause].
Lemma calm_ok : forallb (fun s => (calm s || is_noisy (stos s) || negb (existsb calm (preds s))) &&
  (negb (calm s) || (negb (carrier (stos s)) && (negb (leaky (stos s)) || existsb (N.eqb (stos s)) deferred)))) all_states = true.
Proof. vm_compute. reflexivity. Qed.
Lemma calm_path l : path l -> (forall s, In s l -> is_noisy (stos s) = false) -> forall s, In s l -> calm s = true.
Proof.
  induction 1 as [|s b l I N P IH]; intros H x [<-|IX].
  - reflexivity.
  - destruct IX.
  - pose proof calm_ok as A. rewrite forallb_forall in A. specialize (A s).
    assert (R : In s all_states) by (apply zrange_In; apply preds_nonempty in I; lia). specialize (A R).
    apply andb_prop in A as [A _]. rewrite (H s) in A by now left. rewrite orb_false_r in A. apply orb_prop in A as [A|A]; [exact A|].
    exfalso. apply negb_true_iff in A. assert (E : existsb calm (preds s) = true); [|congruence].
    apply existsb_exists. exists b. split; [exact I|]. apply IH; [|now left]. intros y Y. apply H. now right.
  - apply IH; [|exact IX]. intros y Y. apply H. now right.
Qed.
(** Symbols all of whose derivations contain a noisy token. *)
Definition heavy : list N := [S_with_clause; S_locking_clause; S_opt_locking_clause_list].
Lemma heavy_ok X t : derives X t -> In X (noisy ++ heavy) -> clean (yield t) = false.
Proof.
  assert (K : forallb (fun p => negb (existsb (N.eqb (fst (snd p))) (noisy ++ heavy)) || existsb (fun Y => existsb (N.eqb Y) (noisy ++ heavy)) (snd (snd p))) grammar = true) by (vm_compute; reflexivity).
  rewrite forallb_forall in K.
  assert (NT : forallb (fun Y => N.ltb Y 199) noisy && negb (existsb (fun Y => N.ltb Y 199) heavy) = true) by (vm_compute; reflexivity).
  assert (MN : forall Y l, existsb (N.eqb Y) l = true <-> In Y l).
  { intros Y l. rewrite existsb_exists. split; [intros (y & I & E); apply N.eqb_eq in E; now subst|intro I; exists Y; split; [exact I|apply N.eqb_refl]]. }
  intro D. revert X t D. apply (derives_mind (fun X t _ => In X (noisy ++ heavy) -> clean (yield t) = false)
    (fun Xs ts _ => existsb (fun Y => existsb (N.eqb Y) (noisy ++ heavy)) Xs = true -> clean (yields ts) = false)).
  - intros k I. cbn [yield clean forallb]. apply in_app_iff in I as [I|I].
    + unfold is_noisy. apply MN in I. rewrite I. reflexivity.
    + exfalso. apply andb_prop in NT as [_ NT]. apply negb_true_iff in NT.
      assert (R : (0 <= code_of k)%Z) by apply code_range. destruct (yytranslate_range R) as (y & _ & RY & _ & EY). rewrite sym_code in EY.
      assert (E : existsb (fun Y => N.ltb Y 199) heavy = true); [|congruence]. apply existsb_exists. exists (sym_of k). split; [exact I|]. lia.
  - intros r lhs rhs ts P D IH I. apply production_In in P. specialize (K _ P). cbn [fst snd] in K. apply MN in I. rewrite I in K. cbn [negb orb] in K.
    apply IH. exact K.
  - discriminate.
  - intros X Xs t ts D IH DL IHL H. change (yields (t :: ts)) with (yield t ++ yields ts). rewrite clean_app.
    cbn [existsb] in H. apply orb_prop in H as [H|H]; [rewrite IH by (now apply MN); reflexivity|]. rewrite IHL by exact H. apply andb_false_r.
Qed.
Lemma deferred_empty X t : derives X t -> In X deferred -> clean (yield t) = true -> t = Node 335 [] \/ t = Node 322 [].
Proof.
  intros D I C.
  assert (H : In X heavy \/ X = S_opt_with_clause \/ X = S_opt_locking_clause).
  { unfold deferred in I. cbn [In] in I. unfold heavy. cbn [In]. intuition auto. }
  destruct H as [H|H]; [rewrite (heavy_ok D) in C by (apply in_app_iff; auto); discriminate|].
  destruct D as [k|r lhs rhs ts P DL].
  - exfalso. assert (R : (0 <= code_of k)%Z) by apply code_range. destruct (yytranslate_range R) as (y & _ & RY & _ & EY). rewrite sym_code in EY.
    unfold S_opt_with_clause, S_opt_locking_clause in H. lia.
  - assert (K : forallb (fun p => negb (N.eqb (fst (snd p)) S_opt_with_clause || N.eqb (fst (snd p)) S_opt_locking_clause) ||
        match snd (snd p) with [] => N.eqb (fst p) 335 || N.eqb (fst p) 322 | Y :: _ => existsb (N.eqb Y) heavy end) grammar = true) by (vm_compute; reflexivity).
    rewrite forallb_forall in K. pose proof (production_In P) as PI. specialize (K _ PI). cbn [fst snd] in K.
    assert (E : N.eqb lhs S_opt_with_clause || N.eqb lhs S_opt_locking_clause = true) by (destruct H as [->| ->]; reflexivity).
    rewrite E in K. cbn [negb orb] in K. destruct rhs as [|Y rhs].
    + inversion DL; subst. apply orb_prop in K as [K|K]; apply N.eqb_eq in K as ->; auto.
    + exfalso. inversion DL as [|? ? t ts' DT DL']; subst. apply existsb_exists in K as (Z & IZ & EZ). apply N.eqb_eq in EZ as <-.
      cbn [yield flat_map] in C. rewrite clean_app in C. apply andb_prop in C as [C _]. rewrite (heavy_ok DT) in C by (apply in_app_iff; auto). discriminate.
Qed.
(** On a clean stack, everything is tidy, and no message is pending. *)
Lemma derives_clean X t : derives X t -> clean (yield t) = true -> leak_free t = true.
Proof.
  assert (K : forallb (fun p => negb (N.eqb (fst p) 274 || N.eqb (fst p) 58) || existsb is_noisy (snd (snd p))) grammar = true) by (vm_compute; reflexivity).
  rewrite forallb_forall in K.
  assert (MN : forall Y, is_noisy Y = true -> In Y (noisy ++ heavy)).
  { intros Y E. apply in_app_iff. left. unfold is_noisy in E. apply existsb_exists in E as (y & I & E). apply N.eqb_eq in E. now subst. }
  intro D. revert X t D. apply (derives_mind (fun X t _ => clean (yield t) = true -> leak_free t = true)
    (fun Xs ts _ => clean (yields ts) = true -> forallb leak_free ts = true /\ existsb is_noisy Xs = false)).
  - reflexivity.
  - intros r lhs rhs ts P D IH C. apply production_In in P. specialize (K _ P). cbn [fst snd] in K. destruct (IH C) as [I1 I2].
    rewrite I2, orb_false_r in K. apply negb_true_iff, orb_false_iff in K as [K1 K2]. cbn [leak_free]. now rewrite K1, K2, I1.
  - auto.
  - intros X Xs t ts D IH DL IHL C. change (yields (t :: ts)) with (yield t ++ yields ts) in C. rewrite clean_app in C. apply andb_prop in C as [C1 C2].
    destruct (IHL C2) as [I1 I2]. cbn [forallb existsb]. rewrite IH, I1, I2 by exact C1. split; [reflexivity|].
    destruct (is_noisy X) eqn:E; [|reflexivity]. apply MN in E. rewrite (heavy_ok D E) in C1. discriminate.
Qed.

Lemma sems_each ts : forall k vs n, sems ts k = Some (vs, n) -> Forall2 (fun t v => exists k k', sem t k = Some (v, k')) ts vs.
Proof.
  induction ts as [|t ts IH]; intros k vs n E; cbn [sems] in E; [injection E as <- <-; constructor|].
  destruct (sem t k) as [[v k1]|] eqn:ET; [|discriminate]. destruct (sems ts k1) as [[ws k2]|] eqn:Q; [|discriminate].
  injection E as <- <-. constructor; eauto.
Qed.
Lemma erase_null v : erase v = VNull -> v = VNull.
Proof. destruct v; cbn; congruence. Qed.
Lemma Forall2_in_l A B (R : A -> B -> Prop) l m x : Forall2 R l m -> In x l -> exists y, In y m /\ R x y.
Proof.
  induction 1 as [|a b l m H F IH]; [intros []|]. intros [<-|I]; [exists b; split; [now left|exact H]|].
  destruct (IH I) as (y & IY & RY). exists y. split; [now right|exact RY].
Qed.
Lemma Forall2_zip A B C (R : A -> B -> Prop) (S : B -> C -> Prop) l m n : Forall2 R l m -> Forall2 S m n -> Forall2 (fun a c => exists b, In b m /\ R a b /\ S b c) l n.
Proof.
  intro F. revert n. induction F as [|a b l m H F IH]; intros n G; inversion G as [|? c ? n' S1 G']; subst; constructor.
  - exists b. split; [now left|auto].
  - specialize (IH _ G'). clear -IH. induction IH as [|x y l0 n0 (b0 & I & Q) F IH]; constructor; auto. exists b0. split; [now right|exact Q].
Qed.
Lemma clean_yields trees t : clean (yields trees) = true -> In t trees -> clean (yield t) = true.
Proof.
  unfold clean. intros C I. apply forallb_forall. intros k IK. rewrite forallb_forall in C. apply C. unfold yields. apply in_flat_map. eauto.
Qed.
Lemma clean_stack ts0 e0 B p ents b trees lk lost : inv ts0 e0 B p ents b trees lk lost -> e_msg e0 = VNull -> clean ts0 = true ->
  e_msg (p_env p) = VNull /\ (forall x, In x ents -> tidy x = true) /\ (forall x, lost x = 0).
Proof.
  intros I M0 C. destruct I as [ICTL ISTK IENTS ILOOK ITOKS IPOS IHEAP IFIRST ILOST IMSG IPH].
  assert (CY : clean (yields trees) = true) by (rewrite <- ITOKS, clean_app in C; now apply andb_prop in C).
  assert (CE : forall x, In x ents -> exists t, In t trees /\ ent x t /\ clean (yield t) = true).
  { intros x IX. destruct (Forall2_in_l IENTS IX) as (t & IT & ET). exists t. split; [exact IT|]. split; [exact ET|]. eapply clean_yields; eassumption. }
  destruct ICTL as [CP _]. rewrite ISTK in CP. unfold states in CP. rewrite map_app in CP. cbn [map] in CP.
  pose proof (path_bottom CP) as B0.
  assert (CALM : forall x, In x ents -> calm (s_state x) = true).
  { intros x IX. apply (calm_path CP).
    - intros s IS. apply in_app_iff in IS as [IS|[<-|[]]].
      + apply in_map_iff in IS as (y & <- & IY). apply in_rev in IY. destruct (CE y IY) as (t & _ & ET & CT).
        destruct (is_noisy (stos (s_state y))) eqn:E; [|reflexivity]. exfalso.
        assert (H : clean (yield t) = false); [|congruence]. apply (heavy_ok (en_tree ET)). apply in_app_iff. left. unfold sym, is_noisy in *.
        apply existsb_exists in E as (z & IZ & E). apply N.eqb_eq in E. now rewrite E.
      + rewrite B0. reflexivity.
    - apply in_app_iff. left. apply in_map_iff. exists x. split; [reflexivity|]. now apply -> in_rev. }
  assert (RNG : forall x, In x ents -> In (s_state x) all_states).
  { intros x IX. apply zrange_In. pose proof (path_all CP) as PA. rewrite Forall_forall in PA. specialize (PA (s_state x)).
    assert (0 <= s_state x < 656)%Z; [|lia]. apply PA. apply in_app_iff. left. apply in_map_iff. exists x. split; [reflexivity|]. now apply -> in_rev. }
  assert (CC : forall x, In x ents -> carrier (sym x) = false /\ (leaky (sym x) = true -> In (sym x) deferred)).
  { intros x IX. pose proof calm_ok as A. rewrite forallb_forall in A. specialize (A _ (RNG x IX)). rewrite (CALM x IX) in A.
    apply andb_prop in A as [_ A]. cbn [negb orb] in A. apply andb_prop in A as [A1 A2]. apply negb_true_iff in A1. split; [exact A1|].
    intro L. unfold sym in *. rewrite L in A2. cbn [negb orb] in A2. apply existsb_exists in A2 as (z & IZ & E). apply N.eqb_eq in E. now rewrite E. }
  assert (MN : e_msg (p_env p) = VNull).
  { destruct IMSG as [(_ & EM & _)|(_ & EC)]; [congruence|]. exfalso. apply existsb_exists in EC as (X & IX & E). apply in_map_iff in IX as (x & <- & IX).
    destruct (CC x IX). congruence. }
  assert (LF : forallb leak_free trees = true).
  { apply forallb_forall. intros t IT. assert (CT : clean (yield t) = true) by (eapply clean_yields; eassumption).
    assert (X : exists x, ent x t). { clear -IENTS IT. induction IENTS as [|x y l m H F IH]; [destruct IT|]. destruct IT as [<-|IT]; eauto. }
    destruct X as (x & EX). apply (derives_clean (en_tree EX) CT). }
  split; [exact MN|]. split; [|exact (lost_blocks_zero (ILOST MN) (leak_free_sum LF))].
  intros x IX. unfold tidy. destruct (leaky (sym x)) eqn:L; [|reflexivity]. cbn [negb orb].
  destruct (CC x IX) as [_ DF]. specialize (DF L). destruct IPH as [EA|(tl & ts & rest & ET & _ & _ & RS)].
  - pose proof (ea_sem EA MN) as SM. apply sems_each in SM.
    rewrite map_map in SM. pose proof (Forall2_zip IENTS SM) as Z.
    assert (Q : exists t k k', ent x t /\ In t trees /\ sem t k = Some (erase (s_val x), k')).
    { assert (F3 : Forall (fun x => exists t k k', ent x t /\ In t trees /\ sem t k = Some (erase (s_val x), k')) ents).
      { clear -Z. remember (map (fun x => erase (s_val x)) ents) as vs eqn:EV. revert EV. induction Z as [|a c l n (t & IT & ET & k & k' & ES) F IH]; intro EV; constructor.
        - cbn [map] in EV. injection EV as -> EV. exists t, k, k'. auto.
        - apply IH. cbn [map] in EV. now injection EV. }
      rewrite Forall_forall in F3. auto. }
    destruct Q as (t & k & k' & ET & IT & ES).
    destruct (deferred_empty (en_tree ET) DF (clean_yields CY IT)) as [->| ->]; rewrite sem_node in ES; cbn [sems asem] in ES; injection ES as ES _;
      symmetry in ES; apply erase_null in ES; rewrite ES; reflexivity.
  - exfalso. subst trees. inversion IENTS as [|x0 ? ents' ? E1 E2]; subst.
    assert (S1 : sym x0 = S_input). { pose proof (en_tree E1) as D. inversion D as [|? ? ? ? P ? EQ]; subst. rewrite production_2 in P. injection P as P _. congruence. }
    destruct IX as [<-|IX]; [rewrite S1 in L; vm_compute in L; discriminate L|].
    destruct RS as [->|((k & -> & SK) & _)]; inversion E2 as [|x1 ? ents'' ? E3 E4]; subst; [destruct IX|]. inversion E4; subst.
    destruct IX as [<-|[]]. rewrite (derives_leaf (en_tree E3)), terminal_not_leaky in L. discriminate L.
Qed.
