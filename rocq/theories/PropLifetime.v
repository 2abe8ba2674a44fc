(** Property C72: how long the statements delivered by a parse stay valid, in a program that uses any number of result objects in any order.

    Vocabulary.  [history cs p] (PropHistory.v): the program made the calls [cs] and is now in [p].  A statement [s] is a value whose nodes carry the addresses of
    their blocks, so that "the same [s]" means the same contents at the same addresses; [ca x s]: how often block [x] lies inside [s].  [e_live]: the allocated blocks. *)
From Verif Require Import Script PropParse PropResult History PropHistory.
From Coq Require Import ZifyBool ZifyNat ZifyN.
Local Open Scope nat_scope.

(** The statement is in a result object of the program, or was released to the program and not given away since. *)
Definition in_object (i : nat) (s : val) (p : pool) : Prop := exists r, slot i (p_objs p) = Some r /\ In s (r_stmts r).
Definition in_program (n : nat) (s : val) (p : pool) : Prop := slot n (p_stmts p) = Some s.
Definition around (s : val) (p : pool) : Prop := (exists i, in_object i s p) \/ (exists n, in_program n s p).
(** The only calls that end its life: reset() and destruction of the object that has it, assignment to that object, delete by the program. *)
Definition frees_it (c : call) (s : val) (p : pool) : Prop :=
  match c with Reset i | Destroy i => in_object i s p | Delete n => in_program n s p | _ => False end.
Definition loses_it (c : call) (s : val) (p : pool) : Prop := match c with Assign i _ => in_object i s p | _ => False end.
(** A continuation of the program in which no call ends the life of [s]. *)
Inductive keeping (s : val) : pool -> list call -> pool -> Prop :=
| k_none : forall p, keeping s p [] p
| k_call : forall p c p1 cs p2, allowed c p -> exec c p = Done p1 -> ~ frees_it c s p -> ~ loses_it c s p -> keeping s p1 cs p2 -> keeping s p (c :: cs) p2.

(** ** Lemmas *)
Lemma slot_hit A i (l : list (option A)) a y : slot i l = Some a -> slot i (upd i y l) = y.
Proof. revert l. induction i as [|i IH]; intros [|z l] E; try discriminate E; cbn [upd]; [reflexivity|]. rewrite slot_cons in *. auto. Qed.
Lemma slot_front A i (l m : list (option A)) a : slot i l = Some a -> slot i (l ++ m) = Some a.
Proof. revert l. induction i as [|i IH]; intros [|z l] E; try discriminate E; cbn [app]; [exact E|]. rewrite slot_cons in *. auto. Qed.
Lemma slot_back A i (l m : list (option A)) : slot (List.length l + i) (l ++ m) = slot i m.
Proof. induction l as [|z l IH]; [reflexivity|]. cbn [List.length app Nat.add]. now rewrite slot_cons. Qed.
Lemma slot_None A i (a : A) : slot i [] <> Some a. Proof. destruct i; discriminate. Qed.
Lemma In_slot A (l : list A) a : In a l -> exists i, slot i (map Some l) = Some a.
Proof. induction l as [|b l IH]; [intros []|]. intros [->|I]; [now exists 0|]. destruct (IH I) as (i & E). now exists (S i). Qed.
Lemma cas_In x s l : In s l -> ca x s <= cas x l.
Proof. induction l as [|b l IH]; [intros []|]. cbn [cas]. intros [->|I]; [lia|]. specialize (IH I). lia. Qed.
Lemma sumo_slot A (f : A -> nat) i l a : slot i l = Some a -> f a <= sumo f l.
Proof. intro E. pose proof (sumo_upd _ f _ _ _ E None) as Q. cbn beta iota in Q. lia. Qed.
Lemma around_held s p x : around s p -> ca x s <= held p x.
Proof.
  unfold held. intros [(i & r & E & I)|(n & E)].
  - pose proof (sumo_slot _ (fun r => owned r x) i _ r E) as Q. cbn beta in Q. pose proof (cas_In x s _ I). unfold owned in Q at 1. lia.
  - pose proof (sumo_slot _ (ca x) n _ s E). lia.
Qed.

(** A parse keeps the statements that were there. *)
Lemma parse_keeps cs p i buf0 sql p' r : history cs p -> allowed (Parse i buf0 sql) p -> exec (Parse i buf0 sql) p = Done p' -> slot i (p_objs p) = Some r ->
  exists r' l, slot i (p_objs p') = Some r' /\ r_stmts r' = r_stmts r ++ l /\ p_stmts p' = p_stmts p /\ forall k, k <> i -> slot k (p_objs p') = slot k (p_objs p).
Proof.
  intros H A E SL. destruct (history_ok cs p H) as (lost & O). destruct p as [os ss e]. pose proof A as [NM [RD NH]]. unfold exec in E. cbn [p_objs p_stmts p_env] in *.
  rewrite SL in E. specialize (RD r SL). destruct RD as [M P]. destruct (tokens_total sql) as (ts & T & EE & _).
  set (B := fun x => sumo (fun r => owned r x) (upd i None os) + sumo (ca x) ss + lost x).
  assert (HB : heap e (fun x => cas x (r_stmts r) + B x)).
  { eapply heap_ext; [exact (po_heap _ _ O)|]. intro x. unfold B, held. cbn [p_objs p_stmts]. pose proof (upd_obj0 x i r os SL) as Q. unfold owned in Q at 2. rewrite M in Q. cbn [ca] in Q. lia. }
  assert (H0 : heap (with_result r e) (fun x => cas x (e_stmts (with_result r e)) + B x)) by (apply with_result_heap; exact HB).
  pose proof (parse_inv buf0 T (e0 := with_result r e) M P H0) as OC. unfold parse_into in E. destruct (parse buf0 sql (with_result r e)) as [q e'|u|]; cbn [parse_outcome] in OC; [|discriminate E..]. injection E as <-. cbn [p_objs p_stmts] in *.
  assert (C : exists l, e_stmts e' = r_stmts r ++ l).
  { destruct OC as [(_ & _ & e1 & -> & (tl & semi & k & l2 & _ & _ & _ & _ & RS & _))|(_ & _ & e1 & -> & (_ & [[ES _]|(tl & semi & rest & _ & _ & RS)] & _))]; cbn [set_valid e_stmts].
    - destruct RS as [(l & ES & _) _]. exists l. exact ES.
    - exists []. rewrite app_nil_r. exact ES.
    - destruct RS as [(l & ES & _) _]. exists l. exact ES. }
  destruct C as (l & C). exists (the_result e'), l. split; [exact (slot_hit _ i os r _ SL)|]. split; [exact C|]. split; [reflexivity|]. intros k K. now apply slot_upd.
Qed.

(** ** C72 *)
(** Whatever call the program makes next: a statement that is around stays around, with the same contents at the same addresses, and all of its blocks stay
    allocated, unless the call is one of the four named ones, applied to the owner of this very statement. *)
Theorem C72_statements_stay : forall cs p c p' s, history cs p -> allowed c p -> exec c p = Done p' -> around s p -> ~ frees_it c s p -> ~ loses_it c s p ->
  around s p' /\ forall x, 1 <= ca x s -> In x (e_live (p_env p')).
Proof.
  intros cs p c p' s H A E AR NF NL. assert (G : around s p').
  { destruct p as [os ss e]. pose proof (history_ok cs _ H) as (lost & O). destruct c as [|n|j|i j|i buf0 sql|i|i|i n|i b|i m l c|i|n];
      try (destruct AR as [(k & r & SK & I)|(k & SK)]; unfold in_program in *; cbn [p_objs p_stmts frees_it loses_it] in *).
    - injection E as <-. left. exists k, r. split; [apply slot_front; exact SK|exact I].
    - injection E as <-. right. now exists k.
    - unfold exec in E. destruct (slot n ss) as [s0|] eqn:SN; [|discriminate E]. injection E as <-. left. exists k, r. split; [apply slot_front; exact SK|exact I].
    - unfold exec in E. destruct (slot n ss) as [s0|] eqn:SN; [|discriminate E]. injection E as <-. destruct (Nat.eq_dec k n) as [->|K].
      + left. exists (List.length os + 0), (ctor_stmt s0). split; [apply (slot_back _ 0 os [Some (ctor_stmt s0)])|]. assert (s0 = s) by congruence. subst. now left.
      + right. exists k. unfold in_program. cbn [p_stmts]. now rewrite slot_upd.
    - unfold exec in E. destruct (slot j os) as [r0|] eqn:SJ; [|discriminate E]. destruct (C26_move_constructor r0 e) as (new & old & EM & _ & _ & A3 & _). rewrite EM in E. cbn [done] in E. injection E as <-. destruct (Nat.eq_dec k j) as [->|K].
      + left. exists (List.length (upd j (Some old) os) + 0), new. split; [apply (slot_back _ 0 _ [Some new])|]. rewrite A3. assert (r0 = r) by congruence. now subst.
      + left. exists k, r. split; [apply slot_front; cbn [p_objs]; now rewrite slot_upd|exact I].
    - unfold exec in E. destruct (slot j os) as [r0|] eqn:SJ; [|discriminate E]. destruct (C26_move_constructor r0 e) as (new & old & EM & _). rewrite EM in E. cbn [done] in E. injection E as <-. right. now exists k.
    - unfold exec in E. destruct (i =? j) eqn:EIJ; [discriminate E|]. destruct (slot i os) as [d|] eqn:SI; [|discriminate E]. destruct (slot j os) as [r0|] eqn:SJ; [|discriminate E].
      destruct (C26_move_partial d r0 e) as (d' & r' & EM & _ & _ & A3 & _). rewrite EM in E. cbn [done] in E. injection E as <-. assert (SI' : slot i (upd j (Some r') os) = Some d) by (rewrite slot_upd; [exact SI|lia]). destruct (Nat.eq_dec k j) as [->|K].
      + left. exists i, d'. split; [cbn [p_objs]; eapply slot_hit; exact SI'|]. rewrite A3. assert (r0 = r) by congruence. now subst.
      + destruct (Nat.eq_dec k i) as [->|K2]; [exfalso; apply NL; exists r; auto|]. left. exists k, r. split; [|exact I]. cbn [p_objs]. now rewrite !slot_upd.
    - unfold exec in E. destruct (i =? j) eqn:EIJ; [discriminate E|]. destruct (slot i os) as [d|] eqn:SI; [|discriminate E]. destruct (slot j os) as [r0|] eqn:SJ; [|discriminate E].
      destruct (C26_move_partial d r0 e) as (d' & r' & EM & _). rewrite EM in E. cbn [done] in E. injection E as <-. right. now exists k.
    - assert (SI : exists r0, slot i os = Some r0). { destruct A as [NM _]. unfold exec in NM. destruct (slot i os) as [r0|]; [now exists r0|congruence]. }
      destruct SI as (r0 & SI). destruct (parse_keeps _ _ _ _ _ _ r0 H A E SI) as (r' & l & S1 & S2 & _ & S4). destruct (Nat.eq_dec k i) as [->|K].
      + left. exists i, r'. split; [exact S1|]. rewrite S2. apply in_app_iff. left. assert (r0 = r) by congruence. now subst.
      + left. exists k, r. split; [rewrite (S4 k K); exact SK|exact I].
    - assert (SI : exists r0, slot i os = Some r0). { destruct A as [NM _]. unfold exec in NM. destruct (slot i os) as [r0|]; [now exists r0|congruence]. }
      destruct SI as (r0 & SI). destruct (parse_keeps _ _ _ _ _ _ r0 H A E SI) as (r' & l & _ & _ & S3 & _). right. exists k. unfold in_program. rewrite S3. exact SK.
    - unfold exec in E. destruct (slot i os) as [r0|] eqn:SI; [|discriminate E]. destruct (reset r0 e) as [r' e'|w|u]; cbn [done] in E; try discriminate E. injection E as <-.
      destruct (Nat.eq_dec k i) as [->|K]; [exfalso; apply NF; exists r; auto|]. left. exists k, r. split; [cbn [p_objs]; now rewrite slot_upd|exact I].
    - unfold exec in E. destruct (slot i os) as [r0|] eqn:SI; [|discriminate E]. destruct (reset r0 e) as [r' e'|w|u]; cbn [done] in E; try discriminate E. injection E as <-. right. now exists k.
    - unfold exec in E. destruct (slot i os) as [r0|] eqn:SI; [|discriminate E]. cbn [releaseStatements] in E. injection E as <-. destruct (Nat.eq_dec k i) as [->|K].
      + assert (r0 = r) by congruence. subst. destruct (In_slot _ _ _ I) as (q & Q). right. exists (List.length ss + q). unfold in_program. cbn [p_stmts]. rewrite slot_back. exact Q.
      + left. exists k, r. split; [cbn [p_objs]; now rewrite slot_upd|exact I].
    - unfold exec in E. destruct (slot i os) as [r0|] eqn:SI; [|discriminate E]. cbn [releaseStatements] in E. injection E as <-. right. exists k. unfold in_program. cbn [p_stmts]. now apply slot_front.
    - unfold exec in E. destruct (slot i os) as [r0|] eqn:SI; [|discriminate E]. destruct (slot n ss) as [s0|] eqn:SN; [|discriminate E]. injection E as <-. destruct (Nat.eq_dec k i) as [->|K].
      + left. exists i, (addStatement s0 r0). split; [exact (slot_hit _ i os r0 _ SI)|]. cbn [addStatement r_stmts]. apply in_app_iff. left. assert (r0 = r) by congruence. now subst.
      + left. exists k, r. split; [cbn [p_objs]; now rewrite slot_upd|exact I].
    - unfold exec in E. destruct (slot i os) as [r0|] eqn:SI; [|discriminate E]. destruct (slot n ss) as [s0|] eqn:SN; [|discriminate E]. injection E as <-. destruct (Nat.eq_dec k n) as [->|K].
      + left. exists i, (addStatement s0 r0). split; [exact (slot_hit _ i os r0 _ SI)|]. cbn [addStatement r_stmts]. apply in_app_iff. right. left. congruence.
      + right. exists k. unfold in_program. cbn [p_stmts]. now rewrite slot_upd.
    - unfold exec in E. destruct (slot i os) as [r0|] eqn:SI; [|discriminate E]. injection E as <-. destruct (Nat.eq_dec k i) as [->|K].
      + left. exists i, (setIsValid b r0). split; [exact (slot_hit _ i os r0 _ SI)|]. cbn [setIsValid r_stmts]. assert (r0 = r) by congruence. now subst.
      + left. exists k, r. split; [cbn [p_objs]; now rewrite slot_upd|exact I].
    - unfold exec in E. destruct (slot i os) as [r0|] eqn:SI; [|discriminate E]. injection E as <-. right. now exists k.
    - unfold exec in E. destruct (slot i os) as [r0|] eqn:SI; [|discriminate E]. destruct (snew m e) as [v e'|w|u]; cbn [done] in E; try discriminate E. injection E as <-. destruct (Nat.eq_dec k i) as [->|K].
      + left. exists i, (setErrorDetails v l c r0). split; [exact (slot_hit _ i os r0 _ SI)|]. cbn [setErrorDetails r_stmts]. assert (r0 = r) by congruence. now subst.
      + left. exists k, r. split; [cbn [p_objs]; now rewrite slot_upd|exact I].
    - unfold exec in E. destruct (slot i os) as [r0|] eqn:SI; [|discriminate E]. destruct (snew m e) as [v e'|w|u]; cbn [done] in E; try discriminate E. injection E as <-. right. now exists k.
    - unfold exec in E. destruct (slot i os) as [r0|] eqn:SI; [|discriminate E]. destruct (destroy r0 e) as [v e'|w|u]; cbn [done] in E; try discriminate E. injection E as <-.
      destruct (Nat.eq_dec k i) as [->|K]; [exfalso; apply NF; exists r; auto|]. left. exists k, r. split; [cbn [p_objs]; now rewrite slot_upd|exact I].
    - unfold exec in E. destruct (slot i os) as [r0|] eqn:SI; [|discriminate E]. destruct (destroy r0 e) as [v e'|w|u]; cbn [done] in E; try discriminate E. injection E as <-. right. now exists k.
    - unfold exec in E. destruct (slot n ss) as [s0|] eqn:SN; [|discriminate E]. destruct (del s0 e) as [v e'|w|u]; cbn [done] in E; try discriminate E. injection E as <-. left. exists k, r. split; [exact SK|exact I].
    - unfold exec in E. destruct (slot n ss) as [s0|] eqn:SN; [|discriminate E]. destruct (del s0 e) as [v e'|w|u]; cbn [done] in E; try discriminate E. injection E as <-.
      destruct (Nat.eq_dec k n) as [->|K]; [exfalso; apply NF; exact SK|]. right. exists k. unfold in_program. cbn [p_stmts]. now rewrite slot_upd. }
  split; [exact G|]. intros x X. assert (H2 : history (cs ++ [c]) p') by (econstructor; eassumption). apply (proj1 (C45_every_history_is_safe _ _ H2) x). pose proof (around_held s p' x G). lia.
Qed.
(** So it stays as long as the program makes none of these calls, however long it runs and whatever else it does. *)
Theorem C72_statements_stay_long : forall cs p s cs2 p2, history cs p -> around s p -> keeping s p cs2 p2 ->
  around s p2 /\ forall x, 1 <= ca x s -> In x (e_live (p_env p2)).
Proof.
  intros cs p s cs2 p2 H AR K. revert cs H AR. induction K as [p|p c p1 cs2 p2 A E NF NL K IH]; intros cs H AR.
  - split; [exact AR|]. intros x X. apply (proj1 (C45_every_history_is_safe _ _ H) x). pose proof (around_held s p x AR). lia.
  - apply (IH (cs ++ [c])); [econstructor; eassumption|]. exact (proj1 (C72_statements_stay cs p c p1 s H A E AR NF NL)).
Qed.
(** The other way round: reset(), the destruction of the owner and delete free every block of the statement (a pointer to it dangles from then on), and assignment to the
    owner leaves all of them allocated, but owned by nobody any more: they leak. *)
Theorem C72_statements_end : forall cs p c p' s, history cs p -> allowed c p -> exec c p = Done p' -> around s p ->
  (frees_it c s p -> forall x, 1 <= ca x s -> ~ In x (e_live (p_env p'))) /\
  (loses_it c s p -> forall x, 1 <= ca x s -> In x (e_live (p_env p')) /\ held p' x = 0).
Proof.
  intros cs p c p' s H A E AR. destruct (history_ok cs p H) as (lost & O). pose proof (po_heap _ _ O) as PH0. destruct p as [os ss e]. pose proof O as [PO PS PH]. cbn [p_objs p_stmts p_env] in *. split.
  - intros F x X L. assert (G : exists f, heap (p_env p') f /\ f x = 0).
    { pose proof (heap_one PH x) as H1. cbn beta in H1. unfold held in H1. cbn [p_objs p_stmts] in H1.
      destruct c as [|n|j|i j|i buf0 sql|i|i|i n|i b|i m l c|i|n]; try contradiction; cbn [frees_it] in F; unfold exec in E.
      - destruct F as (r & SL & I). cbn [p_objs] in SL. rewrite SL in E.
        assert (H0 : heap e (fun x => owned r x + (sumo (fun r => owned r x) (upd i None os) + sumo (ca x) ss + lost x))).
        { eapply heap_ext; [exact PH|]. intro y. unfold held. cbn [p_objs p_stmts]. pose proof (upd_obj0 y i r os SL). lia. }
        destruct (reset_ok (all_slot _ _ _ _ _ PO SL) H0) as (e' & ER & H' & _). rewrite ER in E. cbn [done] in E. injection E as <-. cbn [p_env]. eexists. split; [exact H'|]. cbn beta.
        pose proof (upd_obj0 x i r os SL) as Q. pose proof (cas_In x s _ I). unfold owned in Q at 2. lia.
      - destruct F as (r & SL & I). cbn [p_objs] in SL. rewrite SL in E.
        assert (H0 : heap e (fun x => owned r x + (sumo (fun r => owned r x) (upd i None os) + sumo (ca x) ss + lost x))).
        { eapply heap_ext; [exact PH|]. intro y. unfold held. cbn [p_objs p_stmts]. pose proof (upd_obj0 y i r os SL). lia. }
        destruct (reset_ok (all_slot _ _ _ _ _ PO SL) H0) as (e' & ER & H' & _). unfold destroy, bind, ret in E. rewrite ER in E. cbn [done] in E. injection E as <-. cbn [p_env]. eexists. split; [exact H'|]. cbn beta.
        pose proof (upd_obj0 x i r os SL) as Q. pose proof (cas_In x s _ I). unfold owned in Q at 2. lia.
      - cbn [frees_it] in F. unfold in_program in F. cbn [p_stmts] in F. rewrite F in E. pose proof (all_slot _ _ _ _ _ PS F) as W. cbn beta in W.
        destruct (del_final s W e (fun x => sumo (fun r => owned r x) os + sumo (ca x) (upd n None ss) + lost x)) as (e' & ED & H' & _).
        { eapply heap_ext; [exact PH|]. intro y. unfold held. cbn [p_objs p_stmts]. pose proof (upd_stmt0 y n s ss F). lia. }
        rewrite ED in E. cbn [done] in E. injection E as <-. cbn [p_env]. eexists. split; [exact H'|]. cbn beta. pose proof (upd_stmt0 x n s ss F). lia. }
    destruct G as (f & HF & Z). pose proof (heap_live HF x) as Q. rewrite Z in Q. clear - L Q. induction (e_live (p_env p')) as [|a l IH]; [exact L|]. cbn [cntN] in Q. destruct L as [->|L]; [rewrite ind_refl in Q; lia|apply IH; [exact L|lia]].
  - intros F x X. destruct c as [|n|j|i j|i buf0 sql|i|i|i n|i b|i m l c|i|n]; try contradiction. destruct F as (d & SI & I). cbn [p_objs] in SI. unfold exec in E.
    destruct (i =? j) eqn:EIJ; [discriminate E|]. rewrite SI in E. destruct (slot j os) as [r|] eqn:SJ; [|discriminate E].
    destruct (C26_move_partial d r e) as (d' & r' & EM & _ & _ & _ & _ & A4 & A5 & _). rewrite EM in E. cbn [done] in E. injection E as <-. cbn [p_env].
    pose proof (heap_one PH x) as H1. cbn beta in H1. pose proof (cas_In x s _ I) as C. unfold held in *. cbn [p_objs p_stmts] in *.
    assert (SI' : slot i (upd j (Some r') os) = Some d) by (rewrite slot_upd; [exact SI|lia]).
    pose proof (upd_obj x i d d' _ SI') as Q1. pose proof (upd_obj x j r r' os SJ) as Q2. specialize (A4 x). specialize (A5 x).
    pose proof (sumo_slot _ (fun r => owned r x) i os d SI) as Q3. cbn beta in Q3. assert (D : 1 <= owned d x) by (unfold owned; lia).
    split; [|lia]. apply memN_In. eapply heap_mem; [exact PH|]. cbn beta. lia.
Qed.
(** Every statement is a node with a block of its own, and at every moment it is in one place only: in one object, there once, or with the program, there once. *)
Lemma final_block s : wt s TFinal -> exists a c fs, s = VObj a c fs.
Proof. unfold TFinal. intro W. inversion W; subst; eauto. Qed.
Lemma sumo_two A (f : A -> nat) i j l a b : slot i l = Some a -> slot j l = Some b -> i <> j -> f a + f b <= sumo f l.
Proof.
  intros E1 E2 N. pose proof (sumo_upd _ f _ _ _ E1 None) as Q. cbn beta iota in Q. assert (E3 : slot j (upd i None l) = Some b) by (rewrite slot_upd; [exact E2|congruence]).
  pose proof (sumo_slot _ f j _ b E3). lia.
Qed.
Theorem C72_one_owner : forall cs p s, history cs p -> around s p ->
  (exists x, ca x s = 1) /\
  (forall i j, in_object i s p -> in_object j s p -> i = j) /\ (forall m n, in_program m s p -> in_program n s p -> m = n) /\ (forall i n, ~ (in_object i s p /\ in_program n s p)) /\
  (forall i r l1 l2, slot i (p_objs p) = Some r -> r_stmts r = l1 ++ s :: l2 -> ~ In s (l1 ++ l2)).
Proof.
  intros cs p s H AR. destruct (history_ok cs p H) as (lost & [PO PS PH]).
  assert (W : wt s TFinal).
  { destruct AR as [(i & r & E & I)|(n & E)]; [|exact (all_slot _ _ _ _ _ PS E)]. destruct (all_slot _ _ _ _ _ PO E) as [WL _]. apply wtl_Forall in WL. rewrite Forall_forall in WL. exact (WL _ I). }
  destruct (final_block s W) as (a & c & fs & ->). assert (A1 : 1 <= ca a (VObj a c fs)) by (cbn [ca]; rewrite ind_refl; lia).
  pose proof (around_held _ p a AR) as A2. pose proof (proj1 (C45_every_history_is_safe _ _ H) a ltac:(lia)) as [_ A3]. set (s := VObj a c fs) in *. clearbody s.
  split; [exists a; lia|]. unfold held in A3. split; [|split; [|split]].
  - intros i j (r1 & E1 & I1) (r2 & E2 & I2). destruct (Nat.eq_dec i j) as [|N]; [assumption|exfalso]. pose proof (sumo_two _ (fun r => owned r a) i j _ r1 r2 E1 E2 N) as Q. cbn beta in Q.
    pose proof (cas_In a s _ I1). pose proof (cas_In a s _ I2). unfold owned in Q at 1 2. lia.
  - intros m n E1 E2. destruct (Nat.eq_dec m n) as [|N]; [assumption|exfalso]. pose proof (sumo_two _ (ca a) m n _ s s E1 E2 N). lia.
  - intros i n [(r & E1 & I) E2]. pose proof (sumo_slot _ (fun r => owned r a) i _ r E1) as Q. cbn beta in Q. pose proof (sumo_slot _ (ca a) n _ s E2). pose proof (cas_In a s _ I). unfold owned in Q at 1. lia.
  - intros i r l1 l2 E ES I. pose proof (sumo_slot _ (fun r => owned r a) i _ r E) as Q. cbn beta in Q. unfold owned in Q at 1. rewrite ES, cas_app in Q. cbn [cas] in Q. pose proof (cas_In a s _ I) as C. rewrite cas_app in C. lia.
Qed.
(** What parameters() refers to after a parse stays allocated as long as the statement it lies in: also when that statement is moved, released, given to another
    object or kept by the program. *)
Theorem C72_parameters_stay : forall cs p i buf0 sql p1 r1 a z, history cs p -> allowed (Parse i buf0 sql) p -> exec (Parse i buf0 sql) p = Done p1 ->
  slot i (p_objs p1) = Some r1 -> In (a, z) (r_params r1) ->
  exists s, in_object i s p1 /\ 1 <= ca a s /\ forall cs2 p2, keeping s p1 cs2 p2 -> In a (e_live (p_env p2)).
Proof.
  intros cs p i buf0 sql p1 r1 a z H A E SL I. destruct (C45_parameters cs p i buf0 sql p1 r1 H A E SL a z I) as [C _].
  assert (G : exists s, In s (r_stmts r1) /\ 1 <= ca a s).
  { clear - C. induction (r_stmts r1) as [|s l IH]; cbn [cas] in C; [lia|]. destruct (ca a s) eqn:Q; [destruct IH as (s' & I & X); [lia|exists s'; split; [now right|exact X]]|exists s; split; [now left|lia]]. }
  destruct G as (s & IS & X). exists s. split; [exists r1; auto|]. split; [exact X|]. intros cs2 p2 K.
  assert (AR : around s p1) by (left; exists i, r1; auto). assert (H1 : history (cs ++ [Parse i buf0 sql]) p1) by (econstructor; eassumption).
  exact (proj2 (C72_statements_stay_long _ p1 s cs2 p2 H1 AR K) a X).
Qed.

(** ** The program of PropHistory.v: the SELECT statement of its first parse is released, added to another object, moved twice, and freed by the very last call. *)
Definition keepb (a : N) (c : call) (p : pool) : bool :=
  match c with
  | Reset i | Destroy i | Assign i _ => match slot i (p_objs p) with Some r => owned r a =? 0 | None => true end
  | Delete n => match slot n (p_stmts p) with Some s => ca a s =? 0 | None => true end
  | _ => true
  end.
Fixpoint playk (a : N) (cs : list call) (p : pool) : option pool :=
  match cs with [] => Some p | c :: cs' => if goodb c p && keepb a c p then match exec c p with Done p' => playk a cs' p' | _ => None end else None end.
Lemma keepb_ok a s c p : 1 <= ca a s -> keepb a c p = true -> ~ frees_it c s p /\ ~ loses_it c s p.
Proof.
  intros X K. assert (G : forall i, match slot i (p_objs p) with Some r => owned r a =? 0 | None => true end = true -> ~ in_object i s p).
  { intros i Q (r & SL & I). rewrite SL in Q. apply Nat.eqb_eq in Q. pose proof (cas_In a s _ I). unfold owned in Q. lia. }
  destruct c; cbn [keepb frees_it loses_it] in *; split; auto. unfold in_program. intro SL. rewrite SL in K. apply Nat.eqb_eq in K. lia.
Qed.
Lemma playk_ok a s : 1 <= ca a s -> forall cs p p', playk a cs p = Some p' -> keeping s p cs p'.
Proof.
  intro X. induction cs as [|c cs IH]; intros p p' E; cbn [playk] in E; [injection E as <-; constructor|]. destruct (goodb c p) eqn:G; [|discriminate E]. destruct (keepb a c p) eqn:K; [|discriminate E]. cbn [andb] in E.
  destruct (exec c p) as [p1| |] eqn:EX; try discriminate E. destruct (keepb_ok a s c p X K) as [K1 K2]. destruct (goodb_ok c p p1 G EX) as [A _]. econstructor; eauto.
Qed.
Definition root (s : val) : N := match s with VObj a _ _ => a | _ => 0%N end.
(** The first statement of the first object. *)
Definition first_of (o : option pool) : option (pool * val) := match o with Some p => match slot 0 (p_objs p) with Some r => match r_stmts r with s :: _ => Some (p, s) | [] => None end | None => None end | None => None end.
Definition kept_until (cs2 : list call) (o : option pool) : bool := match first_of o with
  | Some (p, s) => (1 <=? ca (root s) s) && match playk (root s) cs2 p with Some p2 => goodb (Destroy 3) p2 && match exec (Destroy 3) p2 with Done _ => true | _ => false end | None => false end
  | None => false end.
Definition ends_in_3 (cs2 : list call) (o : option pool) : Prop := match first_of o with
  | Some (p, s) => match playk (root s) cs2 p with Some p2 => option_map r_stmts (slot 3 (p_objs p2)) = Some [s] | None => False end | None => False end.
Definition params_of (o : option pool) : option nat := match o with Some p => option_map (fun r => List.length (r_params r)) (slot 0 (p_objs p)) | None => None end.
Lemma example_of cs1 cs2 o : play cs1 nothing = o -> kept_until cs2 o = true -> ends_in_3 cs2 o -> params_of o = Some 1 -> exists p s, history cs1 p /\ in_object 0 s p /\ 1 <= ca (root s) s /\
  (exists p2, keeping s p cs2 p2 /\ in_object 3 s p2 /\ allowed (Destroy 3) p2 /\ frees_it (Destroy 3) s p2) /\
  (exists r, slot 0 (p_objs p) = Some r /\ List.length (r_params r) = 1).
Proof.
  unfold kept_until, ends_in_3, params_of, first_of. intros A3 Q Q2 Q3. destruct o as [p|]; [|discriminate Q]. destruct (slot 0 (p_objs p)) as [r|] eqn:S0; [|discriminate Q]. destruct (r_stmts r) as [|s l] eqn:RS; [discriminate Q|].
  apply andb_prop in Q as [X Q]. apply Nat.leb_le in X. destruct (play_ok _ [] nothing p t_start h_start A3) as [_ H].
  exists p, s. split; [exact H|]. split; [exists r; rewrite RS; split; [exact S0|now left]|]. split; [exact X|]. split; [|exists r; split; [exact S0|cbn [option_map] in Q3; injection Q3 as Q3; exact Q3]].
  destruct (playk (root s) cs2 p) as [p2|] eqn:K; [|discriminate Q]. exists p2. split; [exact (playk_ok (root s) s X _ p p2 K)|].
  apply andb_prop in Q as [Q G]. destruct (slot 3 (p_objs p2)) as [r3|] eqn:S3; [|discriminate Q2]. cbn [option_map] in Q2. injection Q2 as R3.
  assert (IO : in_object 3 s p2) by (exists r3; rewrite R3; split; [exact S3|now left]). split; [exact IO|]. split; [|exact IO].
  destruct (exec (Destroy 3) p2) as [p3| |] eqn:EX; try discriminate G. exact (proj1 (goodb_ok _ _ _ Q EX)).
Qed.
Example C72_example : exists p s, history (firstn 3 program) p /\ in_object 0 s p /\ 1 <= ca (root s) s /\
  (exists p2, keeping s p (firstn 15 (skipn 3 program)) p2 /\ in_object 3 s p2 /\ allowed (Destroy 3) p2 /\ frees_it (Destroy 3) s p2) /\
  (exists r, slot 0 (p_objs p) = Some r /\ List.length (r_params r) = 1).
Proof.
  eapply example_of; [reflexivity| | |]; [vm_compute; reflexivity..].
Qed.
