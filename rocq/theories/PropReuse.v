(** Property C56: parsing into any result object, also into one that still carries an error message or parameters of earlier parses.

    Vocabulary.  [call], [exec], [pool] (History.v): the calls a program can make, what they do, the objects, statements and machine it works with.  [slot i (p_objs p)]:
    the program's [i]-th object.  [e_live e]: the allocated blocks.  [held p x] (PropHistory.v): how often block [x] is reachable from the program's objects and
    statements.  [erase] (Sem.v): a statement without its addresses.  [parse buf1 sql fresh_env]: the parse of [sql] by a program that does nothing else.
    [r_params r]: parameters(), as pairs of the address of the parameter's expression and its number.  [makes_table v] (TableStmt.v): the statement is a
    CreateStatement with a list of column definitions.  [cas a l] (Own.v): how often block [a] is reachable from the values [l]. *)
From Verif Require Import Stale TableStmt Script PropParse PropResult History PropHistory.
From Coq Require Import ZifyBool ZifyNat ZifyN Permutation Sorted.
Local Open Scope nat_scope.

(** ** The contract *)
(** The input has a parameter. *)
Definition asks_for (sql : bytes) : Prop := exists ts t, tokens sql ts /\ In t ts /\ t_code t = 63%Z.
(** The expressions parameters() refers to are allocated. *)
Definition params_live (r : result) (e : env) : Prop := forall a z, In (a, z) (r_params r) -> In a (e_live e).
(** A program may name only what it has, may not parse INTERVAL texts with a number outside the range of int (C02), and may not parse '?' into an object with
    parameters whose expressions have been freed. *)
Definition may (c : call) (p : pool) : Prop :=
  exec c p <> Misuse /\ match c with Parse i _ sql => no_huge sql /\ (asks_for sql -> forall r, slot i (p_objs p) = Some r -> params_live r (p_env p)) | _ => True end.
Inductive life : list call -> pool -> Prop :=
| l_start : life [] nothing
| l_call : forall cs p c p', life cs p -> may c p -> exec c p = Done p' -> life (cs ++ [c]) p'.

(** ** The object without its past *)
Definition clean (r : result) : result := mkRes (r_valid r) (r_stmts r) VNull (r_line r) (r_col r) [].
Definition in_order (ps : list (N * Z)) : Prop := StronglySorted (fun p q => (snd p <= snd q)%Z) ps.
Definition known (e : env) (r : result) : Prop := (forall q, In q (r_params r) -> (fst q < e_next e)%N) /\ in_order (r_params r).
Lemma insert_perm q l : Permutation (insert_param q l) (q :: l).
Proof. induction l as [|p l IH]; cbn [insert_param]; [reflexivity|]. destruct (snd q <? snd p)%Z; [reflexivity|]. rewrite IH. apply perm_swap. Qed.
Lemma insert_order q l : in_order l -> in_order (insert_param q l).
Proof.
  unfold in_order. induction 1 as [|p l S IH F]; cbn [insert_param]; [constructor; constructor|]. destruct (snd q <? snd p)%Z eqn:E.
  - constructor; [constructor; assumption|]. rewrite Forall_forall in *. intros x [<-|I]; [lia|]. specialize (F x I). lia.
  - constructor; [exact IH|]. rewrite Forall_forall in *. intros x I. apply (insert_In x q l) in I as [->|I]; [lia|exact (F x I)].
Qed.
Lemma merge_perm qs : forall ps, Permutation (merge ps qs) (ps ++ qs).
Proof. induction qs as [|q qs IH]; intro ps; unfold merge in *; cbn [fold_left]; [rewrite app_nil_r; reflexivity|]. rewrite IH, insert_perm. cbn [app]. apply Permutation_middle. Qed.
Lemma merge_order qs : forall ps, in_order ps -> in_order (merge ps qs).
Proof. induction qs as [|q qs IH]; intros ps S; unfold merge in *; cbn [fold_left]; [exact S|]. apply IH, insert_order, S. Qed.
Lemma In_memN a l : In a l -> memN a l = true.
Proof. induction l as [|b l IH]; [intros []|]. cbn [memN In]. intros [->|I]; [now rewrite N.eqb_refl|]. rewrite IH by exact I. apply orb_true_r. Qed.
Lemma params_all_live r e e' : e_live e' = e_live e -> params_live r e <-> all_live e' (r_params r).
Proof.
  intro L. unfold params_live, all_live. rewrite L. split.
  - intros H [a z] I. cbn [fst]. apply In_memN. exact (H a z I).
  - intros H a z I. apply memN_In. exact (H (a, z) I).
Qed.
Lemma msg_sound m : (m = VNull \/ exists a s, m = VStr a s) -> msg_ok m.
Proof. intros [->|(a & s & ->)]; exact I. Qed.
Lemma stale_parse sql ts r e B0 : tokens sql ts -> sound_result r -> heap e (fun x => owned r x + B0 x) -> known e r ->
  sim_out (with_result r e) ts (with_result (clean r) e) B0 (yyparse ts (with_result (clean r) e)) (yyparse ts (with_result r e)).
Proof.
  intros T [W M] H K. destruct (tokens_total sql) as (ts' & T' & EE & TO & _). unfold tokens in *. rewrite T in T'. injection T' as <-. apply yyparse_side; try reflexivity; try assumption.
  - exact (msg_sound _ M).
  - apply with_result_heap. eapply heap_ext; [exact H|]. intro x. unfold owned. cbn. lia.
  - exact (proj1 K).
Qed.
Lemma parse_eq buf0 sql ts e : tokens sql ts -> parse buf0 sql e = match yyparse ts e with PRet r e' => PRet r (set_valid (r =? 0)%Z e') | o => o end.
Proof. intro T. destruct (tokens_total sql) as (ts' & T' & _ & _ & LB). unfold tokens in *. rewrite T in T'. injection T' as <-. unfold parse. now rewrite LB. Qed.
Lemma next_grows ts e c e' : yyparse ts e = PRet c e' -> (e_next e <= e_next e')%N.
Proof.
  intro E. unfold yyparse in E. refine (@f_run_any (fun x => (e_next e <= e_next x)%N) _ _ _ _ _ _ _ _ _ _ _ _ _ E); cbn; intros; try assumption; try lia.
Qed.
(** ** A parse into any object *)
Lemma clean_heap r e B0 : heap e (fun x => owned r x + B0 x) -> heap (with_result (clean r) e) (fun x => cas x (e_stmts (with_result (clean r) e)) + (ca x (r_msg r) + B0 x)).
Proof. intro H. apply with_result_heap. eapply heap_ext; [exact H|]. intro x. unfold owned. cbn. lia. Qed.
(** The state afterwards. *)
Lemma stale_ok buf0 sql ts r e B0 : tokens sql ts -> sound_result r -> heap e (fun x => owned r x + B0 x) -> known e r -> no_huge sql -> (asks_for sql -> params_live r e) ->
  exists c s, parse_into buf0 sql r e = PRet c s /\ sound_result (the_result s) /\ (exists lost, heap s (fun x => owned (the_result s) x + (lost x + B0 x))) /\ (e_next e <= e_next s)%N /\ known s (the_result s).
Proof.
  intros T SR H K NH PL. pose proof (stale_parse sql ts r e B0 T SR H K) as SO. pose proof SR as [W MO].
  set (c0 := with_result (clean r) e) in *. set (s0 := with_result r e) in *. set (B := fun x => ca x (r_msg r) + B0 x).
  destruct (tokens_total sql) as (ts' & T' & EE & TO & _). assert (ts' = ts) by (unfold tokens in *; congruence). subst ts'.
  pose proof (@yyparse_inv ts c0 B TO eq_refl eq_refl EE (clean_heap r e B0 H)) as O.
  unfold parse_into. fold s0. rewrite (parse_eq buf0 sql ts s0 T). destruct (yyparse ts s0) as [c s|u|] eqn:ES; cbn [sim_out] in SO.
  - exists c, (set_valid (c =? 0)%Z s). split; [reflexivity|]. pose proof (next_grows _ _ _ _ ES) as NG. change (e_next s0) with (e_next e) in NG.
    assert (OLD : forall q, In q (r_params r) -> (fst q < e_next s)%N) by (intros q I; pose proof (proj1 K q I); lia).
    unfold sound_result, owned, known, the_result. cbn [r_stmts r_msg r_params set_valid e_stmts e_msg e_params e_next].
    destruct SO as [(e1 & EC & NR & EL & _)|(-> & ST & _)].
    + rewrite EC in O. cbn [InvRun.outcome] in O. destruct NR as (AL & PA & KE). 
      assert (OD : in_order (e_params s)) by (rewrite PA; apply merge_order, (proj2 K)).
      assert (KN : forall lost, heap s (fun x => cas x (e_stmts s) + ca x (e_msg s) + lost x) -> (e_params e1 = [] \/ exists tl, result_of c0 tl e1) -> forall q, In q (e_params s) -> (fst q < e_next s)%N).
      { intros lost HS C q I. rewrite PA in I. apply merge_In in I as [I|I]; [exact (OLD q I)|]. destruct C as [C|(tl & C)]; [rewrite C in I; destruct I|].
        destruct q as [a z]. pose proof (params_inside c0 tl e1 eq_refl C a z I) as Q. rewrite (al_stmts AL) in Q. apply (heap_next HS). cbn [fst]. lia. }
      destruct O as [(-> & tl & semi & k & lost & D & Y & KK & EQ & RO & H1 & L)|(R12 & ((V & MM & _) & ST & lost & H1 & L))].
      * assert (MS : e_msg s = r_msg r). { destruct KE as [[_ KE]|[KE _]]; [apply KE|]. exfalso. apply KE. destruct EQ as (_ & EM & _). exact EM. }
        assert (HS : heap s (fun x => cas x (e_stmts s) + ca x (e_msg s) + (lost x + B0 x))).
        { apply (heap_like AL). eapply heap_ext; [exact H1|]. intro x. unfold B. cbn beta. rewrite (al_stmts AL), MS. lia. }
        pose proof RO as [(l & ESL & WL & _) _]. split; [split; [rewrite <- (al_stmts AL), ESL; apply wtl_app; assumption|rewrite MS; exact MO]|].
        split; [exists lost; eapply heap_env; [| |exact HS]; reflexivity|]. split; [exact NG|]. split; [|exact OD]. apply (KN _ HS). right. eauto.
      * assert (MS : e_msg s = e_msg e1). { destruct KE as [[KE _]|[_ KE]]; [|apply KE]. destruct MM as (a & m & MM). congruence. }
        assert (HS : heap s (fun x => cas x (e_stmts s) + ca x (e_msg s) + ((lost x + ca x (r_msg r)) + B0 x))).
        { apply (heap_like AL). eapply heap_ext; [exact H1|]. intro x. unfold B. cbn beta. rewrite (al_stmts AL), MS. lia. }
        split; [split; [|rewrite MS; now right]|].
        { rewrite <- (al_stmts AL). destruct ST as [[-> _]|(tl & semi & rest & _ & _ & [(l & ESL & WL & _) _])]; [exact W|]. rewrite ESL. apply wtl_app; assumption. }
        split; [exists (fun x => lost x + ca x (r_msg r)); eapply heap_env; [| |exact HS]; reflexivity|]. split; [exact NG|]. split; [|exact OD]. apply (KN _ HS). 
        destruct ST as [[_ EP]|(tl & semi & rest & _ & _ & RO)]; [left; exact EP|right; eauto].
    + destruct ST as (NM & (V1 & V2 & V3 & V4) & ST & SP & lost & H1). change (e_msg s0) with (r_msg r) in V2. change (e_stmts s0) with (r_stmts r) in ST. change (e_params s0) with (r_params r) in SP.
      split; [rewrite ST, V2; exact SR|]. split; [exists lost; eapply heap_env; [| |eapply heap_ext; [exact H1|]]; [reflexivity..|]; intro x; cbn beta; lia|]. split; [exact NG|]. rewrite SP. split; [exact OLD|exact (proj2 K)].
  - exfalso. destruct SO as [SO|(_ & NL & (t & I & C) & _)].
    + rewrite SO in O. exact (no_overflow _ _ _ NH T O).
    + apply NL. apply (params_all_live r e c0 eq_refl). apply PL. exists ts, t. auto.
  - exfalso. rewrite SO in O. exact O.
Qed.

(** ** Programs *)
Lemma known_later e e' r : (e_next e <= e_next e')%N -> known e r -> known e' r.
Proof. intros L [A B]. split; [|exact B]. intros q I. specialize (A q I). lia. Qed.
Lemma known_params e r r' : r_params r' = r_params r \/ r_params r' = [] -> known e r -> known e r'.
Proof. unfold known. intros [-> | ->] K; [exact K|]. split; [intros q []|constructor]. Qed.
Lemma slots_later e e' os : (e_next e <= e_next e')%N -> all_slots (known e) os -> all_slots (known e') os.
Proof. intros L. apply Forall_impl. intros [r|]; [|auto]. now apply known_later. Qed.
Definition later (n : N) (x : env) : Prop := (n <= e_next x)%N.
Lemma later_alloc n e : later n e -> later n (set_heap (e_next e + 1) (e_next e :: e_live e) e). Proof. unfold later. cbn. lia. Qed.
Lemma later_release n a e : later n e -> later n (set_heap (e_next e) (removeN a (e_live e)) e). Proof. unfold later. cbn. lia. Qed.
Lemma reset_later r e r' e' : reset r e = ROk r' e' -> (e_next e <= e_next e')%N.
Proof.
  intro E. assert (F : Frame.frame (later (e_next e)) (reset r)).
  { unfold reset. apply f_bind; [apply f_del_all|intro; apply f_bind; [apply f_free|intro; apply f_ret]]; intros; first [now apply later_release|assumption]. }
  specialize (F e (N.le_refl _)). rewrite E in F. exact F.
Qed.
Lemma del_later s e u e' : del s e = ROk u e' -> (e_next e <= e_next e')%N.
Proof. intro E. pose proof (@f_del (later (e_next e)) (later_release _) s e (N.le_refl _)) as F. rewrite E in F. exact F. Qed.
Definition no_parse (c : call) : Prop := match c with Parse _ _ _ => False | _ => True end.
Lemma known_step c p p' : no_parse c -> all_slots (known (p_env p)) (p_objs p) -> exec c p = Done p' -> all_slots (known (p_env p')) (p_objs p').
Proof.
  intros NP K E. destruct p as [os ss e]. unfold exec in E. cbn [p_env p_objs] in K. assert (KC : forall r, r_params r = [] -> known e r) by (intros r P; unfold known; rewrite P; split; [intros q []|constructor]).
  destruct c as [|n|j|i j|i buf0 sql|i|i|i n|i b|i m l c|i|n]; try (destruct NP; fail).
  - injection E as <-. cbn. apply all_app; [exact K|constructor; [now apply KC|constructor]].
  - destruct (slot n ss) as [s|]; [|discriminate E]. injection E as <-. cbn. apply all_app; [exact K|constructor; [now apply KC|constructor]].
  - destruct (slot j os) as [r|] eqn:SL; [|discriminate E]. pose proof (all_slot _ _ _ _ _ K SL) as KR. unfold move_ctor, move_assign, bind, ret in E. rewrite reset_empty in E by reflexivity. cbn [done] in E. injection E as <-. cbn [p_env p_objs r_params].
    apply all_app; [apply all_upd; [exact K|exact KR]|constructor; [now apply KC|constructor]].
  - destruct (i =? j); [discriminate E|]. destruct (slot i os) as [d|] eqn:SI; [|discriminate E]. destruct (slot j os) as [r|] eqn:SL; [|discriminate E]. pose proof (all_slot _ _ _ _ _ K SL) as KR. pose proof (all_slot _ _ _ _ _ K SI) as KD.
    unfold move_assign, bind, ret in E. rewrite reset_empty in E by reflexivity. cbn [done] in E. injection E as <-. cbn [p_env p_objs r_params]. apply all_upd; [apply all_upd; [exact K|exact KR]|exact KD].
  - destruct (slot i os) as [r|] eqn:SL; [|discriminate E]. pose proof (all_slot _ _ _ _ _ K SL) as KR. destruct (reset r e) as [r' e'|e'|u] eqn:ER; try discriminate E. cbn [done] in E. injection E as <-. cbn [p_env p_objs].
    pose proof (reset_later _ _ _ _ ER) as L. apply all_upd; [exact (slots_later _ _ _ L K)|]. apply (known_later e); [exact L|]. apply (known_params _ r); [left|exact KR].
    unfold reset, bind, ret in ER. destruct (del_all (r_stmts r) e) as [? e1| |]; try discriminate ER. destruct (free_ (r_msg r) e1) as [? e2| |]; try discriminate ER. injection ER as <- _. reflexivity.
  - destruct (slot i os) as [r|] eqn:SL; [|discriminate E]. pose proof (all_slot _ _ _ _ _ K SL) as KR. cbn [releaseStatements] in E. injection E as <-. cbn [p_env p_objs]. apply all_upd; [exact K|exact KR].
  - destruct (slot i os) as [r|] eqn:SL; [|discriminate E]. pose proof (all_slot _ _ _ _ _ K SL) as KR. destruct (slot n ss) as [s|]; [|discriminate E]. injection E as <-. cbn [p_env p_objs]. apply all_upd; [exact K|exact KR].
  - destruct (slot i os) as [r|] eqn:SL; [|discriminate E]. pose proof (all_slot _ _ _ _ _ K SL) as KR. injection E as <-. cbn [p_env p_objs]. apply all_upd; [exact K|exact KR].
  - destruct (slot i os) as [r|] eqn:SL; [|discriminate E]. pose proof (all_slot _ _ _ _ _ K SL) as KR. unfold snew, bind, ret, alloc in E. cbn [done] in E. injection E as <-. cbn [p_env p_objs].
    assert (L : (e_next e <= e_next (set_heap (e_next e + 1) (e_next e :: e_live e) e))%N) by (cbn; lia). apply all_upd; [exact (slots_later _ _ _ L K)|]. exact (known_later e _ r L KR).
  - destruct (slot i os) as [r|] eqn:SL; [|discriminate E]. unfold destroy, bind, ret in E. destruct (reset r e) as [r' e'|e'|u] eqn:ER; try discriminate E. cbn [done] in E. injection E as <-. cbn [p_env p_objs].
    apply all_upd; [exact (slots_later _ _ _ (reset_later _ _ _ _ ER) K)|exact Logic.I].
  - destruct (slot n ss) as [s|]; [|discriminate E]. destruct (del s e) as [u e'|e'|u] eqn:ED; try discriminate E. cbn [done] in E. injection E as <-. cbn [p_env p_objs]. exact (slots_later _ _ _ (del_later _ _ _ _ ED) K).
Qed.
Definition life_ok (p : pool) : Prop := exists lost, pool_ok p lost /\ all_slots (known (p_env p)) (p_objs p).
(** What the other objects, the statements and the lost blocks own. *)
Definition rest (p : pool) (i : nat) (lost : N -> nat) (x : N) : nat := sumo (fun r => owned r x) (upd i None (p_objs p)) + sumo (ca x) (p_stmts p) + lost x.
Lemma rest_heap p i r lost : pool_ok p lost -> slot i (p_objs p) = Some r -> heap (p_env p) (fun x => owned r x + rest p i lost x).
Proof. intros O SL. eapply heap_ext; [exact (po_heap _ _ O)|]. intro x. unfold rest, held. pose proof (upd_obj0 x i r _ SL). lia. Qed.
Lemma slot_set A i (l : list (option A)) a y : slot i l = Some a -> slot i (upd i y l) = y.
Proof. revert l. induction i as [|i IH]; intros [|z l] SL; try discriminate SL; cbn [upd]; [reflexivity|]. rewrite slot_cons in *. auto. Qed.
Lemma call_life c p : life_ok p -> may c p -> exists p', exec c p = Done p' /\ life_ok p'.
Proof.
  intros (lost & O & K) MY. assert (NP : no_parse c \/ exists i buf0 sql, c = Parse i buf0 sql) by (destruct c; cbn; eauto 6). destruct NP as [NP|(i & buf0 & sql & ->)].
  - assert (AL : allowed c p) by (split; [apply MY|destruct c; try exact I; destruct NP]). destruct (call_ok c p lost O AL) as (p' & E & lost' & O' & _). exists p'. split; [exact E|]. exists lost'. split; [exact O'|]. exact (known_step c p p' NP K E).
  - destruct MY as [NM [NH PL]]. destruct p as [os ss e]. unfold exec in *. cbn [p_objs p_env] in *. destruct (slot i os) as [r|] eqn:SL; [|congruence]. pose proof O as [PO PS PH].
    destruct (tokens_total sql) as (ts & T & _). pose proof (rest_heap _ i r lost O SL) as HR. pose proof (all_slot _ _ _ _ _ PO SL) as SR. pose proof (all_slot _ _ _ _ _ K SL) as KR.
    destruct (stale_ok buf0 sql ts r e _ T SR HR KR NH (fun A => PL A r eq_refl)) as (c & s & E & SR' & (lost' & H') & L & KR'). rewrite E. eexists. split; [reflexivity|].
    exists (fun x => lost' x + lost x). split; [constructor; cbn [p_objs p_stmts p_env]|].
    + apply all_upd; [exact PO|exact SR'].
    + exact PS.
    + eapply heap_ext; [exact H'|]. intro x. unfold rest, held. cbn [p_objs p_stmts]. rewrite (put_back x i r _ os SL). lia.
    + cbn [p_env p_objs]. apply all_upd; [exact (slots_later _ _ _ L K)|exact KR'].
Qed.
Lemma life_inv cs p : life cs p -> life_ok p.
Proof.
  induction 1 as [|cs p c p' H L A E]; [exists (fun _ => 0); split; [exact nothing_ok|constructor]|]. destruct (call_life c p L A) as (p2 & E2 & L2). rewrite E in E2. injection E2 as <-. exact L2.
Qed.

(** ** Compared with a parse by a program that does nothing else *)
Lemma clean_verdict r e B0 sql ts q e1 buf1 c' e' : tokens sql ts -> sound_result r -> heap e (fun x => owned r x + B0 x) -> yyparse ts (with_result (clean r) e) = PRet q e1 -> parse buf1 sql fresh_env = PRet c' e' ->
  (q =? 0)%Z = e_valid e' /\ (q = 0%Z -> map erase (e_stmts e1) = map erase (r_stmts r) ++ map erase (e_stmts e') /\ List.length (e_params e1) = List.length (e_params e')).
Proof.
  intros T SR H Y E'. set (c0 := with_result (clean r) e) in *. pose proof (clean_heap r e B0 H) as H0. fold c0 in H0.
  assert (E : parse [] sql c0 = PRet q (set_valid (q =? 0)%Z e1)) by (rewrite (parse_eq [] sql ts c0 T), Y; reflexivity).
  pose proof (@parse_valid [] sql ts c0 _ T eq_refl eq_refl H0 _ _ E) as V. pose proof (parse_valid (B := fun _ => 0) (e0 := fresh_env) T eq_refl eq_refl heap_fresh E') as V'. cbn [set_valid e_valid] in V.
  assert (VV : (q =? 0)%Z = e_valid e'). { destruct (q =? 0)%Z, (e_valid e'); try reflexivity; [symmetry; apply V', V|apply V, V']; reflexivity. }
  split; [exact VV|]. intros ->. destruct (proj1 V eq_refl) as (l & n & MM).
  pose proof (proj2 (@parse_means [] sql ts c0 _ T eq_refl eq_refl H0 l n) MM) as (e2 & l2 & A1 & _ & A2 & A3 & A4). rewrite E in A1. injection A1 as <-.
  pose proof (proj2 (parse_means (B := fun _ => 0) buf1 (e0 := fresh_env) T eq_refl eq_refl heap_fresh l n) MM) as (e3 & l3 & B1 & _ & B2 & B3 & B4). rewrite E' in B1. injection B1 as _ <-.
  cbn [set_valid c0 with_result clean r_stmts e_stmts e_params fresh_env app] in A2, A4, B2. rewrite A2, map_app, A3, B2, B3. split; [reflexivity|congruence].
Qed.
(** A valid input is accepted by the parse into the object without its past. *)
Lemma clean_accepts r e B0 sql ts buf1 c' e' : tokens sql ts -> heap e (fun x => owned r x + B0 x) -> parse buf1 sql fresh_env = PRet c' e' -> e_valid e' = true -> exists e1, yyparse ts (with_result (clean r) e) = PRet 0 e1.
Proof.
  intros T H E' V. set (c0 := with_result (clean r) e) in *. pose proof (clean_heap r e B0 H) as H0. fold c0 in H0.
  pose proof (parse_valid (B := fun _ => 0) (e0 := fresh_env) T eq_refl eq_refl heap_fresh E') as V'. apply V' in V as (l & n & MM).
  pose proof (proj2 (@parse_means [] sql ts c0 _ T eq_refl eq_refl H0 l n) MM) as (e2 & l2 & A1 & _). rewrite (parse_eq [] sql ts c0 T) in A1. destruct (yyparse ts c0) as [q e1|u|]; try discriminate A1. injection A1 as -> _. eauto.
Qed.
Lemma table_tree r e ts B tl semi k e1 e' : accepted_as tl semi k ts (with_result (clean r) e) B e1 -> map erase (e_stmts e1) = map erase (r_stmts r) ++ map erase (e_stmts e') ->
  existsb makes_table (e_stmts e') = negb (no56 tl).
Proof.
  intros (lost & D & _ & _ & _ & [(l & ES & _ & SM & _) _] & _) EQ. cbn [with_result clean r_stmts e_stmts] in ES. rewrite ES, map_app in EQ. apply app_inv_head in EQ.
  rewrite <- (statements_56 (input_list _ _ D) SM), EQ. clear. induction (e_stmts e') as [|v l IH]; [reflexivity|]. cbn [existsb map]. now rewrite makes_erase, IH.
Qed.
Lemma numbers_snd ps : forall qs id, List.length ps = List.length qs -> map snd (numbers ps id) = map snd (numbers qs id).
Proof. induction ps as [|a ps IH]; intros [|b qs] id L; try discriminate L; [reflexivity|]. cbn [numbers map snd]. f_equal. apply IH. now injection L. Qed.
Lemma numbers_len ps : forall id, List.length (numbers ps id) = List.length ps.
Proof. induction ps; intro id; cbn [numbers List.length]; auto. Qed.

(** ** C56 *)
(** Whatever the program did so far -- parse into objects that still carry the message and the parameters of earlier parses, reset them, move them, release
    their statements -- every further call within the contract is defined, and it leaves every block reachable from an object or a statement of the program
    allocated, and reachable in one way only. *)
Theorem C56_every_life_is_safe : forall cs p, life cs p ->
  (forall x, 1 <= held p x -> In x (e_live (p_env p)) /\ held p x = 1) /\
  forall c, may c p -> exists p', exec c p = Done p' /\ life (cs ++ [c]) p'.
Proof.
  intros cs p H. pose proof (life_inv cs p H) as LO. split.
  - destruct LO as (lost & O & _). intros x X. pose proof (po_heap _ _ O) as PH. pose proof (heap_one PH x) as H1. cbn beta in H1. split; [|lia]. apply memN_In. eapply heap_mem; [exact PH|]. cbn beta. lia.
  - intros c A. destruct (call_life c p LO A) as (p' & E & _). exists p'. split; [exact E|]. econstructor; eassumption.
Qed.

(** What a parse makes of the object, given what a parse of the same text by a program that does nothing else gives ([e]).  An old message changes the verdict of
    valid texts that create a table from column definitions, and of no others: those are rejected, and the object keeps everything.  Otherwise a valid text
    is accepted, its statements are appended, its parameters are sorted into the old ones, and the old message and its position stay.  An invalid text is
    rejected with a message. *)
Theorem C56_parse_into_used_object : forall cs p i r buf0 sql p' buf1 c e, life cs p -> slot i (p_objs p) = Some r -> may (Parse i buf0 sql) p -> exec (Parse i buf0 sql) p = Done p' -> parse buf1 sql fresh_env = PRet c e ->
  exists r', slot i (p_objs p') = Some r' /\
    (e_valid e = true -> r_msg r = VNull \/ existsb makes_table (e_stmts e) = false ->
       r_valid r' = true /\ map erase (r_stmts r') = map erase (r_stmts r) ++ map erase (e_stmts e) /\ r_msg r' = r_msg r /\ r_line r' = r_line r /\ r_col r' = r_col r /\
       exists new, Permutation (r_params r') (r_params r ++ new) /\ in_order (r_params r') /\ map snd new = map snd (e_params e) /\ forall a z, In (a, z) new -> 1 <= cas a (r_stmts r')) /\
    (e_valid e = true -> r_msg r <> VNull -> existsb makes_table (e_stmts e) = true -> r' = mkRes false (r_stmts r) (r_msg r) (r_line r) (r_col r) (r_params r)) /\
    (e_valid e = false -> r_valid r' = false /\ r_msg r' <> VNull) /\
    (forall k, k <> i -> slot k (p_objs p') = slot k (p_objs p)) /\ p_stmts p' = p_stmts p.
Proof.
  intros cs p i r buf0 sql p' buf1 c e LI SL [_ [NH _]] E E'. destruct (life_inv cs p LI) as (lost & O & K). pose proof (rest_heap p i r lost O SL) as HR. pose proof (all_slot _ _ _ _ _ (po_objs _ _ O) SL) as SR. pose proof (all_slot _ _ _ _ _ K SL) as KR.
  destruct (tokens_total sql) as (ts & T & EE & TO & _). pose proof (stale_parse sql ts r (p_env p) _ T SR HR KR) as SO.
  pose proof (@yyparse_inv ts (with_result (clean r) (p_env p)) _ TO eq_refl eq_refl EE (clean_heap r (p_env p) _ HR)) as OC.
  destruct p as [os ss e0]. unfold exec in E. cbn [p_objs p_stmts p_env] in *. rewrite SL in E. unfold parse_into in E. rewrite (parse_eq buf0 sql ts _ T) in E.
  destruct (yyparse ts (with_result r e0)) as [q s|u|] eqn:ES; try discriminate E. injection E as <-. cbn [p_objs p_stmts]. exists (the_result (set_valid (q =? 0)%Z s)).
  assert (OTHER : (forall k, k <> i -> slot k (upd i (Some (the_result (set_valid (q =? 0)%Z s))) os) = slot k os) /\ ss = ss) by (split; [intros k NE; apply slot_upd, NE|reflexivity]).
  split; [apply (slot_set _ i os r _ SL)|]. cbn [sim_out] in SO.
  destruct SO as [(e1 & EC & (AL & PA & KE) & EL & AC)|(-> & (NM & (V1 & V2 & V3 & V4) & ST & SP & _) & AC)].
  - destruct (clean_verdict r e0 _ sql ts q e1 buf1 c e T SR HR EC E') as [VD EQ]. rewrite EC in OC. cbn [InvRun.outcome] in OC.
    destruct OC as [(-> & _)|(R12 & ((_ & MM & _) & _))].
    + specialize (EQ eq_refl) as [EQ EN]. destruct (AC eq_refl) as (tl & semi & k & AT & MT). pose proof (table_tree _ _ _ _ _ _ _ _ _ AT EQ) as TT. destruct AT as (l2 & D & Y & _ & (_ & EM & _) & RO & _).
      change (e_msg (with_result r e0)) with (r_msg r) in MT. assert (KP : err_eq (with_result r e0) s) by (destruct KE as [[_ KE]|[KE _]]; [exact KE|exfalso; apply KE; exact EM]). destruct KP as (K1 & K2 & K3 & K4).
      cbn [the_result r_valid r_stmts r_msg r_line r_col r_params set_valid e_valid e_stmts e_msg e_line e_col e_params]. change ((0 =? 0)%Z) with true in *.
      split; [intros _ _|split; [intros _ NM MK; exfalso|split; [congruence|exact OTHER]]].
      * split; [reflexivity|]. split; [rewrite <- (al_stmts AL); exact EQ|]. split; [exact K2|]. split; [exact K3|]. split; [exact K4|]. exists (e_params e1). rewrite PA. split; [apply merge_perm|]. split; [apply merge_order, (proj2 KR)|].
        split; [|intros a z IN; rewrite <- (al_stmts AL); exact (params_inside (with_result (clean r) e0) tl e1 eq_refl RO a z IN)].
        pose proof (parse_inv buf1 T (e0 := fresh_env) (B := fun _ => 0) eq_refl eq_refl heap_fresh) as OF. rewrite E' in OF. cbn [parse_outcome] in OF.
        destruct OF as [(_ & _ & e2 & -> & (tl2 & semi2 & k2 & l3 & _ & _ & _ & _ & RO2 & _))|(_ & V & _)]; [|congruence].
        cbn [set_valid e_params] in EN |- *. rewrite (ro_params RO), (ro_params RO2) in EN |- *. cbn [with_result clean r_params e_params fresh_env app] in *. rewrite !numbers_len in EN. now apply numbers_snd.
      * destruct MT as [MT|MT]; [contradiction|]. rewrite MT in TT. cbn in TT. congruence.
    + assert (Q0 : (q =? 0)%Z = false) by lia. rewrite Q0 in *. split; [congruence|]. split; [congruence|]. split; [|exact OTHER]. intros _. split; [reflexivity|]. cbn [the_result r_msg set_valid e_msg].
      destruct KE as [[KE _]|[KE (_ & K2 & _)]]; [destruct MM as (a & m & MM); congruence|congruence].
  - change (e_msg (with_result r e0)) with (r_msg r) in *. change (e_stmts (with_result r e0)) with (r_stmts r) in *. change (e_params (with_result r e0)) with (r_params r) in *. change (e_line (with_result r e0)) with (r_line r) in *. change (e_col (with_result r e0)) with (r_col r) in *.
    split; [intros V MT; exfalso|split; [intros _ _ _|split; [intros _; split; [reflexivity|]|exact OTHER]]].
    + destruct (clean_accepts r e0 _ sql ts buf1 c e T HR E' V) as (e1 & EC). destruct (clean_verdict r e0 _ sql ts 0%Z e1 buf1 c e T SR HR EC E') as [_ EQ]. specialize (EQ eq_refl) as [EQ _].
      destruct (AC e1 EC) as (tl & semi & k & AT & N5). pose proof (table_tree _ _ _ _ _ _ _ _ _ AT EQ) as TT. rewrite N5 in TT. cbn in TT. destruct MT as [MT|MT]; [contradiction|congruence].
    + unfold the_result. cbn [set_valid e_valid e_stmts e_msg e_line e_col e_params]. rewrite V2, V3, V4, ST, SP. reflexivity.
    + cbn [the_result r_msg set_valid e_msg]. congruence.
Qed.

(** The last condition of [may] cannot be dropped, and how exactly it fails: with a parameter whose expression is freed, a valid text with '?' reads freed memory
    (except that the old message may reject the text before). *)
Theorem C56_freed_parameters : forall cs p i r buf0 sql buf1 c e a z, life cs p -> slot i (p_objs p) = Some r -> In (a, z) (r_params r) -> ~ In a (e_live (p_env p)) ->
  parse buf1 sql fresh_env = PRet c e -> e_valid e = true -> e_params e <> [] -> r_msg r = VNull \/ existsb makes_table (e_stmts e) = false ->
  exec (Parse i buf0 sql) p = Undefined UUseAfterFree.
Proof.
  intros cs p i r buf0 sql buf1 c e a z LI SL IN ND E' V NP MT. destruct (life_inv cs p LI) as (lost & O & K). pose proof (rest_heap p i r lost O SL) as HR. pose proof (all_slot _ _ _ _ _ (po_objs _ _ O) SL) as SR. pose proof (all_slot _ _ _ _ _ K SL) as KR.
  destruct (tokens_total sql) as (ts & T & _). pose proof (stale_parse sql ts r (p_env p) _ T SR HR KR) as SO. destruct p as [os ss e0]. unfold exec. cbn [p_objs p_stmts p_env] in *. rewrite SL. unfold parse_into. rewrite (parse_eq buf0 sql ts _ T).
  destruct (clean_accepts r e0 _ sql ts buf1 c e T HR E' V) as (e1 & EC). destruct (clean_verdict r e0 _ sql ts 0%Z e1 buf1 c e T SR HR EC E') as [_ EQ]. specialize (EQ eq_refl) as [EQ EN]. rewrite EC in SO.
  assert (NL : ~ all_live (with_result (clean r) e0) (r_params r)). { intro AL. apply ND, memN_In. exact (AL _ IN). }
  destruct (yyparse ts (with_result r e0)) as [q s|u|] eqn:ES; cbn [sim_out] in SO.
  - exfalso. destruct SO as [(e2 & X & _ & [EL|EL] & _)|(-> & (NM & _) & AC)].
    + injection X as _ <-. apply NP, length_zero_iff_nil. rewrite <- EN, EL. reflexivity.
    + exact (NL EL).
    + destruct (AC e1 eq_refl) as (tl & semi & k & AT & N5). pose proof (table_tree _ _ _ _ _ _ _ _ _ AT EQ) as TT. rewrite N5 in TT. cbn in TT. destruct MT as [MT|MT]; [exact (NM MT)|congruence].
  - destruct SO as [SO|(-> & _)]; [discriminate SO|reflexivity].
  - discriminate SO.
Qed.

(** ** A program: a failing parse, then, into the same object, a query with a parameter, a CREATE TABLE (rejected because of the old message), a query with two
    parameters, reset() and a query without parameter. *)
Definition used : list call :=
  [New; Parse 0 [] (la "SELECT FROM"); Parse 0 [] (la "SELECT ? FROM t"); Parse 0 [] (la "CREATE TABLE t (a INT)"); Parse 0 [] (la "DELETE FROM t WHERE a = ? AND b = ?"); Reset 0; Parse 0 [] (la "SELECT 1")].
(** Deciding the conditions (for this example). *)
Definition live_b (r : result) (e : env) : bool := forallb (fun q => memN (fst q) (e_live e)) (r_params r).
Definition asks_b (sql : bytes) : bool := match lex_all [] sql with Some ts => existsb (fun t => (t_code t =? 63)%Z) ts | None => true end.
Definition may_b (c : call) (p : pool) : bool :=
  match c with Parse i _ sql => if short sql then if asks_b sql then match slot i (p_objs p) with Some r => live_b r (p_env p) | None => false end else true else false | _ => true end.
Fixpoint live_on (cs : list call) (p : pool) : option pool := match cs with [] => Some p | c :: cs' => if may_b c p then match exec c p with Done p' => live_on cs' p' | _ => None end else None end.
Lemma may_b_ok c p p' : may_b c p = true -> exec c p = Done p' -> may c p.
Proof.
  intros G E. unfold may. rewrite E. split; [discriminate|]. destruct c as [|n|j|i j|i buf0 sql|i|i|i n|i b|i m l c|i|n]; try exact I. cbn [may_b] in G. destruct (short sql) eqn:SH; [|discriminate G].
  split; [now apply short_no_huge|]. intros (ts & t & T & IN & C) r SL. assert (A : asks_b sql = true). { unfold asks_b. unfold tokens in T. rewrite T. apply existsb_exists. exists t. split; [exact IN|lia]. }
  rewrite A, SL in G. unfold live_b in G. rewrite forallb_forall in G. intros a z J. apply memN_In. exact (G (a, z) J).
Qed.
Lemma live_on_ok : forall cs cs0 p p', life cs0 p -> live_on cs p = Some p' -> life (cs0 ++ cs) p'.
Proof.
  induction cs as [|c cs IH]; intros cs0 p p' H E; cbn [live_on] in E; [injection E as <-; now rewrite app_nil_r|]. destruct (may_b c p) eqn:G; [|discriminate E].
  destruct (exec c p) as [p1| |] eqn:EX; try discriminate E. replace (cs0 ++ c :: cs) with ((cs0 ++ [c]) ++ cs) by (rewrite <- app_assoc; reflexivity). apply (IH _ p1); [|exact E]. econstructor; [exact H|exact (may_b_ok c p p1 G EX)|exact EX].
Qed.
(** What the program sees of its object: isValid(), size(), has a message, the numbers of the parameters, whether all of them are allocated. *)
Definition seen (n : nat) : option (list (option (bool * nat * bool * list Z * bool))) :=
  option_map (fun p => map (option_map (fun r => (r_valid r, r_size r, negb (nullb (r_msg r)), map snd (r_params r), live_b r (p_env p)))) (p_objs p)) (live_on (firstn n used) nothing).
Example C56_example :
  seen 2 = Some [Some (false, 0, true, [], true)] /\ seen 3 = Some [Some (true, 1, true, [0%Z], true)] /\ seen 4 = Some [Some (false, 1, true, [0%Z], true)] /\
  seen 5 = Some [Some (true, 2, true, [0%Z; 0%Z; 1%Z], true)] /\ seen 6 = Some [Some (false, 0, false, [0%Z; 0%Z; 1%Z], false)] /\ seen 7 = Some [Some (true, 1, false, [0%Z; 0%Z; 1%Z], false)].
Proof. repeat split; vm_compute; reflexivity. Qed.
(** After reset(), the object refers to freed parameters: SELECT ? would read them. *)
Example C56_example_freed : exists p r a z, life (firstn 6 used) p /\ slot 0 (p_objs p) = Some r /\ In (a, z) (r_params r) /\ ~ In a (e_live (p_env p)) /\ exec (Parse 0 [] (la "SELECT ?")) p = Undefined UUseAfterFree.
Proof.
  assert (Q : match live_on (firstn 6 used) nothing with Some p => match slot 0 (p_objs p) with Some r => match r_params r with (a, z) :: _ => negb (memN a (e_live (p_env p))) | [] => false end | None => false end | None => false end = true) by (vm_compute; reflexivity).
  destruct (live_on (firstn 6 used) nothing) as [p|] eqn:E; [|discriminate Q]. destruct (slot 0 (p_objs p)) as [r|] eqn:SL; [|discriminate Q]. destruct (r_params r) as [|[a z] ps] eqn:PS; [discriminate Q|]. apply negb_true_iff in Q.
  assert (L : life (firstn 6 used) p) by exact (live_on_ok _ [] nothing p l_start E). assert (N : ~ In a (e_live (p_env p))) by (intro IN; rewrite (In_memN a _ IN) in Q; discriminate Q).
  exists p, r, a, z. split; [exact L|]. split; [exact SL|]. split; [rewrite PS; now left|]. split; [exact N|].
  assert (F : exists c e, parse [] (la "SELECT ?") fresh_env = PRet c e /\ e_valid e = true /\ e_params e <> [] /\ existsb makes_table (e_stmts e) = false).
  { assert (F : match parse [] (la "SELECT ?") fresh_env with PRet c e => (e_valid e, List.length (e_params e), existsb makes_table (e_stmts e)) | _ => (false, 0, true) end = (true, 1, false)) by (vm_compute; reflexivity).
    destruct (parse [] (la "SELECT ?") fresh_env) as [c e|u|]; try discriminate F. injection F as F1 F2 F3. exists c, e. split; [reflexivity|]. split; [exact F1|]. split; [|exact F3]. intro Z. rewrite Z in F2. discriminate F2. }
  destruct F as (c & e & E1 & V & NP & MT). apply (C56_freed_parameters (firstn 6 used) p 0 r [] (la "SELECT ?") [] c e a z); auto. rewrite PS. now left.
Qed.
