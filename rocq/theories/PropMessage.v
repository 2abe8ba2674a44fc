(** Property C73: how long the text returned by errorMsg() stays valid, in a program that uses any number of result objects in any order.

    Vocabulary.  [history], [allowed] (PropHistory.v), [exec] (History.v).  [VStr a m]: the characters [m] in the block [a]; [e_live]: the allocated blocks;
    [held p x]: how often block [x] is reachable from the objects and the statements of the program. *)
From Verif Require Import Script PropParse PropResult History PropHistory PropLifetime.
From Coq Require Import ZifyBool ZifyNat ZifyN.
Local Open Scope nat_scope.

(** errorMsg() of the i-th object returns the text [m] at the address [a]. *)
Definition message (i : nat) (a : N) (m : bytes) (p : pool) : Prop := exists r, slot i (p_objs p) = Some r /\ r_msg r = VStr a m.
(** The calls that end its life. *)
Definition frees_msg (c : call) (a : N) (m : bytes) (p : pool) : Prop := match c with Reset i | Destroy i => message i a m p | _ => False end.
Definition loses_msg (c : call) (a : N) (m : bytes) (p : pool) : Prop := match c with Assign i _ | SetError i _ _ _ => message i a m p | _ => False end.
Inductive keeping_msg (a : N) (m : bytes) : pool -> list call -> pool -> Prop :=
| km_none : forall p, keeping_msg a m p [] p
| km_call : forall p c p1 cs p2, allowed c p -> exec c p = Done p1 -> ~ frees_msg c a m p -> ~ loses_msg c a m p -> keeping_msg a m p1 cs p2 -> keeping_msg a m p (c :: cs) p2.

Lemma message_held i a m p : message i a m p -> 1 <= held p a.
Proof.
  intros (r & E & M). unfold held. pose proof (sumo_slot _ (fun r => owned r a) i _ r E) as Q. cbn beta in Q. unfold owned in Q at 1. rewrite M in Q. cbn [ca] in Q. rewrite ind_refl in Q. lia.
Qed.
(** The object that has the message after the call: a move takes it along. *)
Definition new_place (c : call) (k : nat) (p : pool) : nat := match c with NewMove j => if k =? j then List.length (p_objs p) else k | Assign i j => if k =? j then i else k | _ => k end.
Lemma upd_length A i (y : option A) l : List.length (upd i y l) = List.length l.
Proof. revert i. induction l as [|z l IH]; intros [|i]; cbn [upd List.length]; auto. Qed.

(** Whatever call the program makes next: the text stays in an object, unchanged and at the same address, and allocated, unless the call is reset() or destruction of the
    object, or assignment to it or setErrorDetails() on it.  It stays in the same object, except that a move takes it to the target. *)
Theorem C73_message_stays : forall cs p c p' k a m, history cs p -> allowed c p -> exec c p = Done p' -> message k a m p -> ~ frees_msg c a m p -> ~ loses_msg c a m p ->
  message (new_place c k p) a m p' /\ In a (e_live (p_env p')).
Proof.
  intros cs p c p' k a m H A E MK NF NL. assert (G : message (new_place c k p) a m p').
  { destruct p as [os ss e]. destruct MK as (r & SK & MR). cbn [p_objs] in SK. destruct c as [|n|j|i j|i buf0 sql|i|i|i n|i b|i t l c|i|n]; cbn [frees_msg loses_msg new_place p_objs] in *.
    - injection E as <-. exists r. split; [apply slot_front; exact SK|exact MR].
    - unfold exec in E. destruct (slot n ss) as [s0|] eqn:SN; [|discriminate E]. injection E as <-. exists r. split; [apply slot_front; exact SK|exact MR].
    - unfold exec in E. destruct (slot j os) as [r0|] eqn:SJ; [|discriminate E]. destruct (C26_move_constructor r0 e) as (new & old & EM & _ & A2 & _). rewrite EM in E. cbn [done] in E. injection E as <-. destruct (k =? j) eqn:K.
      + apply Nat.eqb_eq in K. subst k. exists new. split; [|rewrite A2; congruence]. cbn [p_objs]. pose proof (slot_back _ 0 (upd j (Some old) os) [Some new]) as Q. rewrite upd_length, Nat.add_0_r in Q. exact Q.
      + apply Nat.eqb_neq in K. exists r. split; [apply slot_front; cbn [p_objs]; now rewrite slot_upd|exact MR].
    - unfold exec in E. destruct (i =? j) eqn:EIJ; [discriminate E|]. destruct (slot i os) as [d|] eqn:SI; [|discriminate E]. destruct (slot j os) as [r0|] eqn:SJ; [|discriminate E].
      destruct (C26_move_partial d r0 e) as (d' & r' & EM & _ & A2 & _). rewrite EM in E. cbn [done] in E. injection E as <-. assert (SI' : slot i (upd j (Some r') os) = Some d) by (rewrite slot_upd; [exact SI|lia]). destruct (k =? j) eqn:K.
      + apply Nat.eqb_eq in K. subst k. exists d'. split; [cbn [p_objs]; eapply slot_hit; exact SI'|rewrite A2; congruence].
      + apply Nat.eqb_neq in K. destruct (Nat.eq_dec k i) as [->|K2]; [exfalso; apply NL; exists r; auto|]. exists r. split; [|exact MR]. cbn [p_objs]. now rewrite !slot_upd.
    - assert (SI : exists r0, slot i os = Some r0). { destruct A as [NM _]. unfold exec in NM. destruct (slot i os) as [r0|]; [now exists r0|congruence]. }
      destruct SI as (r0 & SI). destruct (parse_keeps _ _ _ _ _ _ r0 H A E SI) as (r' & l & S1 & S2 & _ & S4). destruct (Nat.eq_dec k i) as [->|K].
      + exfalso. destruct A as [_ [RD _]]. destruct (RD r SK) as [M0 _]. congruence.
      + exists r. split; [rewrite (S4 k K); exact SK|exact MR].
    - unfold exec in E. destruct (slot i os) as [r0|] eqn:SI; [|discriminate E]. destruct (reset r0 e) as [r' e'|w|u]; cbn [done] in E; try discriminate E. injection E as <-.
      destruct (Nat.eq_dec k i) as [->|K]; [exfalso; apply NF; exists r; auto|]. exists r. split; [cbn [p_objs]; now rewrite slot_upd|exact MR].
    - unfold exec in E. destruct (slot i os) as [r0|] eqn:SI; [|discriminate E]. cbn [releaseStatements] in E. injection E as <-. destruct (Nat.eq_dec k i) as [->|K].
      + assert (r0 = r) by congruence. subst. eexists. split; [cbn [p_objs]; eapply slot_hit; exact SI|exact MR].
      + exists r. split; [cbn [p_objs]; now rewrite slot_upd|exact MR].
    - unfold exec in E. destruct (slot i os) as [r0|] eqn:SI; [|discriminate E]. destruct (slot n ss) as [s0|] eqn:SN; [|discriminate E]. injection E as <-. destruct (Nat.eq_dec k i) as [->|K].
      + exists (addStatement s0 r0). split; [exact (slot_hit _ i os r0 _ SI)|]. cbn [addStatement r_msg]. congruence.
      + exists r. split; [cbn [p_objs]; now rewrite slot_upd|exact MR].
    - unfold exec in E. destruct (slot i os) as [r0|] eqn:SI; [|discriminate E]. injection E as <-. destruct (Nat.eq_dec k i) as [->|K].
      + exists (setIsValid b r0). split; [exact (slot_hit _ i os r0 _ SI)|]. cbn [setIsValid r_msg]. congruence.
      + exists r. split; [cbn [p_objs]; now rewrite slot_upd|exact MR].
    - unfold exec in E. destruct (slot i os) as [r0|] eqn:SI; [|discriminate E]. destruct (snew t e) as [v e'|w|u]; cbn [done] in E; try discriminate E. injection E as <-.
      destruct (Nat.eq_dec k i) as [->|K]; [exfalso; apply NL; exists r; auto|]. exists r. split; [cbn [p_objs]; now rewrite slot_upd|exact MR].
    - unfold exec in E. destruct (slot i os) as [r0|] eqn:SI; [|discriminate E]. destruct (destroy r0 e) as [v e'|w|u]; cbn [done] in E; try discriminate E. injection E as <-.
      destruct (Nat.eq_dec k i) as [->|K]; [exfalso; apply NF; exists r; auto|]. exists r. split; [cbn [p_objs]; now rewrite slot_upd|exact MR].
    - unfold exec in E. destruct (slot n ss) as [s0|] eqn:SN; [|discriminate E]. destruct (del s0 e) as [v e'|w|u]; cbn [done] in E; try discriminate E. injection E as <-. exists r. split; [exact SK|exact MR]. }
  split; [exact G|]. assert (H2 : history (cs ++ [c]) p') by (econstructor; eassumption). apply (proj1 (C45_every_history_is_safe _ _ H2) a). exact (message_held _ a m p' G).
Qed.
Theorem C73_message_stays_long : forall cs p a m cs2 p2, history cs p -> (exists k, message k a m p) -> keeping_msg a m p cs2 p2 -> (exists k, message k a m p2) /\ In a (e_live (p_env p2)).
Proof.
  intros cs p a m cs2 p2 H AR K. revert cs H AR. induction K as [p|p c p1 cs2 p2 A E NF NL K IH]; intros cs H (k & M).
  - split; [now exists k|]. apply (proj1 (C45_every_history_is_safe _ _ H) a). exact (message_held k a m p M).
  - apply (IH (cs ++ [c])); [econstructor; eassumption|]. eexists. exact (proj1 (C73_message_stays cs p c p1 k a m H A E M NF NL)).
Qed.
(** reset() and destruction free it; assignment to the object and setErrorDetails() leave it allocated without an owner. *)
Theorem C73_message_ends : forall cs p c p' a m, history cs p -> allowed c p -> exec c p = Done p' ->
  (frees_msg c a m p -> ~ In a (e_live (p_env p'))) /\
  (loses_msg c a m p -> In a (e_live (p_env p')) /\ held p' a = 0).
Proof.
  intros cs p c p' a m H A E. destruct (history_ok cs p H) as (lost & O). destruct p as [os ss e]. pose proof O as [PO PS PH]. cbn [p_objs p_stmts p_env] in *. split.
  - intros F L. assert (G : exists f, heap (p_env p') f /\ f a = 0).
    { pose proof (heap_one PH a) as H1. cbn beta in H1. unfold held in H1. cbn [p_objs p_stmts] in H1.
      assert (K : forall i r, slot i os = Some r -> r_msg r = VStr a m -> exists e', reset r e = ROk (mkRes false [] VNull (VInt (-1)) (VInt (-1)) (r_params r)) e' /\
        heap e' (fun x => sumo (fun r => owned r x) (upd i None os) + sumo (ca x) ss + lost x) /\ sumo (fun r => owned r a) (upd i None os) + sumo (ca a) ss + lost a = 0).
      { intros i r SL MR. assert (H0 : heap e (fun x => owned r x + (sumo (fun r => owned r x) (upd i None os) + sumo (ca x) ss + lost x))).
        { eapply heap_ext; [exact PH|]. intro y. unfold held. cbn [p_objs p_stmts]. pose proof (upd_obj0 y i r os SL). lia. }
        destruct (reset_ok (all_slot _ _ _ _ _ PO SL) H0) as (e' & ER & H' & _). exists e'. split; [exact ER|]. split; [exact H'|].
        pose proof (upd_obj0 a i r os SL) as Q. unfold owned in Q at 2. rewrite MR in Q. cbn [ca] in Q. rewrite ind_refl in Q. lia. }
      destruct c as [|n|j|i j|i buf0 sql|i|i|i n|i b|i t l c|i|n]; try contradiction; cbn [frees_msg] in F; unfold exec in E; destruct F as (r & SL & MR); cbn [p_objs] in SL; rewrite SL in E; destruct (K i r SL MR) as (e' & ER & H' & Z).
      - rewrite ER in E. cbn [done] in E. injection E as <-. eexists. split; [exact H'|exact Z].
      - unfold destroy, bind, ret in E. rewrite ER in E. cbn [done] in E. injection E as <-. eexists. split; [exact H'|exact Z]. }
    destruct G as (f & HF & Z). pose proof (heap_live HF a) as Q. rewrite Z in Q. clear - L Q. induction (e_live (p_env p')) as [|b l IH]; [exact L|]. cbn [cntN] in Q. destruct L as [->|L]; [rewrite ind_refl in Q; lia|apply IH; [exact L|lia]].
  - intros F. pose proof (heap_one PH a) as H1. cbn beta in H1. unfold held in *. cbn [p_objs p_stmts] in *.
    destruct c as [|n|j|i j|i buf0 sql|i|i|i n|i b|i t l c|i|n]; try contradiction; destruct F as (d & SI & MD); cbn [p_objs] in SI; unfold exec in E.
    + destruct (i =? j) eqn:EIJ; [discriminate E|]. rewrite SI in E. destruct (slot j os) as [r|] eqn:SJ; [|discriminate E].
      destruct (C26_move_partial d r e) as (d' & r' & EM & _ & _ & _ & _ & A4 & A5 & _). rewrite EM in E. cbn [done] in E. injection E as <-. cbn [p_env p_objs p_stmts].
      assert (SI' : slot i (upd j (Some r') os) = Some d) by (rewrite slot_upd; [exact SI|lia]).
      pose proof (upd_obj a i d d' _ SI') as Q1. pose proof (upd_obj a j r r' os SJ) as Q2. specialize (A4 a). specialize (A5 a).
      pose proof (sumo_slot _ (fun r => owned r a) i os d SI) as Q3. cbn beta in Q3. assert (D : 1 <= owned d a) by (unfold owned; rewrite MD; cbn [ca]; rewrite ind_refl; lia).
      split; [|lia]. apply memN_In. eapply heap_mem; [exact PH|]. cbn beta. unfold held. cbn [p_objs p_stmts]. lia.
    + rewrite SI in E. destruct (alloc_spec PH) as (FR & e' & EA & H' & _). unfold snew, bind, ret in E. rewrite EA in E. cbn [done] in E. injection E as <-. cbn [p_env p_objs p_stmts].
      match goal with |- context [upd i (Some ?r') os] => pose proof (upd_obj a i d r' os SI) as Q1 end.
      pose proof (sumo_slot _ (fun r => owned r a) i os d SI) as Q3. cbn beta in Q3. assert (D : owned d a = cas a (r_stmts d) + 1) by (unfold owned; rewrite MD; cbn [ca]; rewrite ind_refl; lia).
      assert (P1 : 1 <= held (mkPool os ss e) a + lost a) by (unfold held; cbn [p_objs p_stmts]; lia).
      assert (LV : memN a (e_live e') = true) by (eapply heap_mem; [exact H'|]; cbn beta; lia).
      split; [now apply memN_In|]. pose proof (heap_one H' a) as H2. cbn beta in H2. unfold held in H2. cbn [p_objs p_stmts] in H2. 
      change (owned (setErrorDetails (VStr (e_next e) t) l c d) a) with (cas a (r_stmts d) + ind (e_next e) a) in Q1. lia.
Qed.

(** ** A program: a failing parse; its message is moved twice, survives a later parse into the first object and the destruction of the objects it was in before. *)
Definition mprogram1 : list call := [New; Parse 0 [] hsql2].
Definition mprogram2 : list call := [NewMove 0; New; Assign 2 1; Parse 0 [] hsql1; SetValid 2 true; Destroy 1; Release 0; Destroy 0].
Definition keepmb (a : N) (c : call) (p : pool) : bool :=
  match c with Reset i | Destroy i | Assign i _ | SetError i _ _ _ => match slot i (p_objs p) with Some r => owned r a =? 0 | None => true end | _ => true end.
Fixpoint playm (a : N) (cs : list call) (p : pool) : option pool :=
  match cs with [] => Some p | c :: cs' => if goodb c p && keepmb a c p then match exec c p with Done p' => playm a cs' p' | _ => None end else None end.
Lemma keepmb_ok a m c p : keepmb a c p = true -> ~ frees_msg c a m p /\ ~ loses_msg c a m p.
Proof.
  intros K. assert (G : forall i, match slot i (p_objs p) with Some r => owned r a =? 0 | None => true end = true -> ~ message i a m p).
  { intros i Q (r & SL & M). rewrite SL in Q. apply Nat.eqb_eq in Q. unfold owned in Q. rewrite M in Q. cbn [ca] in Q. rewrite ind_refl in Q. lia. }
  destruct c; cbn [keepmb frees_msg loses_msg] in *; split; auto.
Qed.
Lemma playm_ok a m : forall cs p p', playm a cs p = Some p' -> keeping_msg a m p cs p'.
Proof.
  induction cs as [|c cs IH]; intros p p' E; cbn [playm] in E; [injection E as <-; constructor|]. destruct (goodb c p) eqn:G; [|discriminate E]. destruct (keepmb a c p) eqn:K; [|discriminate E]. cbn [andb] in E.
  destruct (exec c p) as [p1| |] eqn:EX; try discriminate E. destruct (keepmb_ok a m c p K) as [K1 K2]. destruct (goodb_ok c p p1 G EX) as [A _]. econstructor; eauto.
Qed.
Definition msg_of (i : nat) (o : option pool) : option (N * bytes) := match o with Some p => match slot i (p_objs p) with Some r => match r_msg r with VStr a m => Some (a, m) | _ => None end | None => None end | None => None end.
Definition msg_kept (cs2 : list call) (o : option pool) : Prop := match o, msg_of 0 o with Some p, Some (a, m) => (msg_of 2 (playm a cs2 p), 10 <=? List.length m) = (Some (a, m), true) | _, _ => False end.
Lemma mexample_of cs1 cs2 o : play cs1 nothing = o -> msg_kept cs2 o -> exists p a m p2, history cs1 p /\ message 0 a m p /\ 10 <= List.length m /\ keeping_msg a m p cs2 p2 /\ message 2 a m p2 /\
  (allowed (Destroy 2) p2 /\ frees_msg (Destroy 2) a m p2) /\ (allowed (SetError 2 (la "other") 1 1) p2 /\ loses_msg (SetError 2 (la "other") 1 1) a m p2).
Proof.
  unfold msg_kept. intros A3 Q. destruct o as [p|]; [|destruct Q]. destruct (msg_of 0 (Some p)) as [[a m]|] eqn:M0; [|destruct Q]. apply pair_equal_spec in Q as [Q L]. apply Nat.leb_le in L. destruct (playm a cs2 p) as [p2|] eqn:K; [|discriminate Q].
  assert (MO : forall i q, msg_of i (Some q) = Some (a, m) -> message i a m q).
  { intros i q X. unfold msg_of in X. destruct (slot i (p_objs q)) as [r|] eqn:S0; [|discriminate X]. destruct (r_msg r) eqn:RM; try discriminate X. injection X as -> ->. exists r. auto. }
  destruct (play_ok _ [] nothing p t_start h_start A3) as [_ H]. pose proof (MO _ _ M0) as M1. pose proof (MO _ _ Q) as M2. exists p, a, m, p2. split; [exact H|]. split; [exact M1|]. split; [exact L|]. split; [exact (playm_ok a m _ p p2 K)|]. split; [exact M2|].
  assert (NM : forall A (f : res A) k, done f k <> Misuse) by (intros A [] k; discriminate).
  pose proof M2 as (r & SL & _). split; (split; [|exact M2]); (split; [|exact Logic.I]); destruct p2 as [os ss e]; unfold exec; cbn [p_objs] in SL; rewrite SL; apply NM.
Qed.
Example C73_example : exists p a m p2, history mprogram1 p /\ message 0 a m p /\ 10 <= List.length m /\ keeping_msg a m p mprogram2 p2 /\ message 2 a m p2 /\
  (allowed (Destroy 2) p2 /\ frees_msg (Destroy 2) a m p2) /\ (allowed (SetError 2 (la "other") 1 1) p2 /\ loses_msg (SetError 2 (la "other") 1 1) a m p2).
Proof.
  eapply mexample_of; [reflexivity|]. vm_compute. reflexivity.
Qed.
