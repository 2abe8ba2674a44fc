(** Properties C25 - C28: the life of a result object.

    Vocabulary.  [result], [reset], [destroy], [releaseStatements], [move_assign], [move_ctor], [parse_into] (Api.v) model SQLParserResult and
    SQLParser::parse; freeing a block that is not allocated is undefined behaviour in the model (Heap.v), so an outcome [ROk] excludes double
    frees.  [e_live e]: the allocated blocks.  [owned r x] (ParseProof.v): how often block [x] is reachable from the statements and the message of [r];
    [cas x l]: from the values [l].  [cntN x l]: occurrences of [x] in [l]. *)
From Verif Require Import Script PropParse.
From Coq Require Import ZifyBool ZifyNat ZifyN.
Local Open Scope nat_scope.

(** ** Histories of a result object *)
(** The object, the machine, and the statements handed out by releaseStatements so far. *)
Record world := mkWorld { w_res : result; w_env : env; w_out : list val }.
Definition start : world := mkWorld ctor fresh_env [].
(** A parse may follow if the object holds no error message and no parameters (see C25_refuted for the others). *)
Definition ready (r : result) : Prop := r_msg r = VNull /\ r_params r = [].
Inductive step : world -> world -> Prop :=
| s_parse : forall r e out buf0 sql c e', ready r -> parse_into buf0 sql r e = PRet c e' -> step (mkWorld r e out) (mkWorld (the_result e') e' out)
| s_reset : forall r e out r' e', reset r e = ROk r' e' -> step (mkWorld r e out) (mkWorld r' e' out)
| s_release : forall r e out, step (mkWorld r e out) (mkWorld (snd (releaseStatements r)) e (out ++ fst (releaseStatements r)))
| s_move : forall r e out new old e', move_ctor r e = ROk (new, old) e' -> step (mkWorld r e out) (mkWorld new e' out). (* from now on the new object is used *)
Inductive steps : world -> world -> Prop :=
| st_refl : forall w, steps w w
| st_step : forall a b c, step a b -> steps b c -> steps a c.
Lemma steps_trans a b c : steps a b -> steps b c -> steps a c.
Proof. induction 1; auto. intro. econstructor; eauto. Qed.
Definition reachable (w : world) : Prop := steps start w.

Definition world_ok (w : world) : Prop := sound_result (w_res w) /\ exists lost, heap (w_env w) (fun x => owned (w_res w) x + (cas x (w_out w) + lost x)).
Lemma start_ok : world_ok start.
Proof. split; [split; [constructor|now left]|]. exists (fun _ => 0). eapply heap_ext; [apply heap_fresh|reflexivity]. Qed.
Lemma with_result_heap r e F : heap e F -> heap (with_result r e) F.
Proof. apply heap_env; reflexivity. Qed.
Lemma parse_step r e out buf0 sql c e' : ready r -> world_ok (mkWorld r e out) -> parse_into buf0 sql r e = PRet c e' -> world_ok (mkWorld (the_result e') e' out).
Proof.
  intros [M P] [[W _] (lost & H)] E. cbn [w_res w_env w_out] in *. unfold parse_into in E. destruct (tokens_total sql) as (ts & T & _).
  assert (H0 : heap (with_result r e) (fun x => cas x (e_stmts (with_result r e)) + (cas x out + lost x))).
  { apply with_result_heap. eapply heap_ext; [exact H|]. intro x. unfold owned. rewrite M. cbn [ca with_result e_stmts]. lia. }
  pose proof (parse_inv buf0 T (e0 := with_result r e) M P H0) as O. rewrite E in O. cbn [parse_outcome] in O.
  destruct O as [(_ & _ & e1 & -> & (tl & semi & k & l2 & D & Y & K & EQ & [RS RP] & H1 & L))|(_ & _ & e1 & -> & ((V & MM & _) & ST & l2 & H1 & L))].
  - destruct RS as (l & ES & WL & _). destruct EQ as (_ & EM & _). cbn [with_result e_msg e_stmts] in EM, ES. rewrite M in EM. split.
    + unfold sound_result, the_result. cbn [w_res r_stmts r_msg set_valid e_stmts e_msg]. split; [rewrite ES; now apply wtl_app|now left].
    + exists (fun x => l2 x + lost x). apply (@heap_env e1); [reflexivity|reflexivity|]. eapply heap_ext; [exact H1|]. intro x. unfold owned, the_result. cbn [w_res w_out r_stmts r_msg set_valid e_stmts e_msg]. rewrite EM. cbn [ca]. lia.
  - split.
    + unfold sound_result, the_result. cbn [w_res r_stmts r_msg set_valid e_stmts e_msg]. split; [|now right].
      destruct ST as [[-> _]|(tl & semi & rest & _ & _ & [RS _])]; [exact W|]. destruct RS as (l & ES & WL & _). cbn [with_result e_stmts] in ES. rewrite ES. now apply wtl_app.
    + exists (fun x => l2 x + lost x). apply (@heap_env e1); [reflexivity|reflexivity|]. eapply heap_ext; [exact H1|]. intro x. unfold owned, the_result. cbn [w_res w_out r_stmts r_msg set_valid e_stmts e_msg]. lia.
Qed.

Lemma reset_empty r e : r_stmts r = [] -> r_msg r = VNull -> reset r e = ROk (mkRes false [] VNull (VInt (-1)) (VInt (-1)) (r_params r)) e.
Proof. intros A B. unfold reset. rewrite A, B. reflexivity. Qed.
Lemma step_ok a b : step a b -> world_ok a -> world_ok b.
Proof.
  intros S O. destruct S as [r e out buf0 sql c e' R E|r e out r' e' E|r e out|r e out new old e' E].
  - eapply parse_step; eassumption.
  - destruct O as [SR (lost & H)]. cbn [w_res w_env w_out] in *. destruct (reset_ok SR H) as (e2 & E2 & H2 & _). rewrite E in E2. injection E2 as -> ->. split; [split; [constructor|now left]|].
    exists lost. eapply heap_ext; [exact H2|]. intro x. cbn. lia.
  - destruct O as [[W M] (lost & H)]. cbn [w_res w_env w_out releaseStatements fst snd] in *. split; [split; [constructor|exact M]|]. exists lost. eapply heap_ext; [exact H|]. intro x. unfold owned. cbn [w_res w_out r_stmts r_msg cas]. rewrite cas_app. lia.
  - destruct O as [[W M] (lost & H)]. cbn [w_res w_env w_out] in *. unfold move_ctor, move_assign, bind, ret in E. rewrite reset_empty in E by reflexivity. injection E as <- <- <-. split; [split; assumption|]. exists lost. exact H.
Qed.
Lemma steps_ok a b : steps a b -> world_ok a -> world_ok b.
Proof. induction 1; auto. intro. apply IHsteps. eapply step_ok; eassumption. Qed.
Lemma reachable_ok w : reachable w -> world_ok w.
Proof. intro R. eapply steps_ok; [exact R|apply start_ok]. Qed.
Lemma step_out a b : step a b -> exists l, w_out b = w_out a ++ l.
Proof. destruct 1; cbn [w_out]; eauto; exists []; now rewrite app_nil_r. Qed.
Lemma steps_out a b : steps a b -> exists l, w_out b = w_out a ++ l.
Proof. induction 1 as [w|a b c S _ (l & IH)]; [exists []; now rewrite app_nil_r|]. destruct (step_out _ _ S) as (l2 & E). rewrite IH, E. exists (l2 ++ l). now rewrite app_assoc. Qed.

Lemma memN_In x l : memN x l = true -> In x l.
Proof. induction l as [|y l IH]; cbn [memN In]; [discriminate|]. intro H. apply orb_prop in H as [H|H]; [left; symmetry; now apply N.eqb_eq|right; auto]. Qed.

(** ** C28: reset and destruction *)
(** The result of reset(): invalid, no statements, no message, position -1. *)
Definition cleared (r : result) : Prop := r_valid r = false /\ r_size r = 0 /\ r_msg r = VNull /\ r_line r = VInt (-1) /\ r_col r = VInt (-1).
Theorem C28_reset : forall w, reachable w -> exists r' e',
  reset (w_res w) (w_env w) = ROk r' e' /\ cleared r' /\ (forall x, cntN x (e_live e') + owned (w_res w) x = cntN x (e_live (w_env w))) /\ reset r' e' = ROk r' e' /\
  destroy (w_res w) (w_env w) = ROk tt e' /\ destroy r' e' = ROk tt e'.
Proof.
  intros w R. destruct (reachable_ok w R) as [SR (lost & H)]. destruct (reset_ok SR H) as (e2 & E2 & H2 & _). eexists _, e2. split; [exact E2|]. split; [repeat split|].
  split; [intro x; rewrite (heap_live H2 x), (heap_live H x); lia|]. split; [now rewrite reset_empty|]. unfold destroy, bind. rewrite E2. split; [reflexivity|]. now rewrite reset_empty.
Qed.

(** ** C27: releaseStatements *)
Theorem C27_release : forall w, reachable w -> let l := fst (releaseStatements (w_res w)) in let r' := snd (releaseStatements (w_res w)) in
  l = r_stmts (w_res w) /\ r_size r' = 0 /\ r_valid r' = r_valid (w_res w) /\
  (* whatever happens to the object afterwards, the statements stay allocated and nobody else refers to them *)
  forall w', steps (mkWorld r' (w_env w) (w_out w ++ l)) w' -> forall x, 1 <= cas x l ->
    In x (e_live (w_env w')) /\ cas x l = 1 /\ owned (w_res w') x = 0 /\
    exists r2 e2, reset (w_res w') (w_env w') = ROk r2 e2 /\ destroy (w_res w') (w_env w') = ROk tt e2 /\ In x (e_live e2).
Proof.
  intros w R l r'. split; [reflexivity|]. split; [reflexivity|]. split; [reflexivity|]. intros w' S x X.
  assert (S0 : step w (mkWorld r' (w_env w) (w_out w ++ l))) by (destruct w; apply s_release).
  assert (R' : reachable w') by (eapply steps_trans; [exact R|]; econstructor; eassumption).
  destruct (steps_out _ _ S) as (l2 & O). cbn [w_out] in O. destruct (reachable_ok _ R') as [SR (lost & H)].
  assert (C : cas x (w_out w') = cas x (w_out w) + cas x l + cas x l2) by (rewrite O, !cas_app; lia). pose proof (heap_one H x) as H1. cbn beta in H1.
  split; [apply memN_In; eapply heap_mem; [exact H|]; cbn beta; lia|]. split; [lia|]. split; [lia|].
  destruct (reset_ok SR H) as (e2 & E2 & H2 & _). eexists _, e2. split; [exact E2|]. split; [unfold destroy, bind; now rewrite E2|]. apply memN_In. eapply heap_mem; [exact H2|]. cbn beta. lia.
Qed.

(** A history: two parses, statements handed out after the first one. *)
Definition sql1 : bytes := la "SELECT a, 'x' FROM t WHERE b = ?; DELETE FROM t".
Definition sql2 : bytes := la "INSERT INTO t VALUES (1, 'y')".
Definition world1 : world := match parse [] sql2 fresh_env with PRet _ e => mkWorld (the_result e) e [] | _ => start end.
Definition world2 : world := mkWorld (snd (releaseStatements (w_res world1))) (w_env world1) (fst (releaseStatements (w_res world1))).
Definition world3 : world := match parse_into [] sql1 (w_res world2) (w_env world2) with PRet _ e => mkWorld (the_result e) e (w_out world2) | _ => start end.
Example C27_example : reachable world1 /\ reachable world3 /\ List.length (r_stmts (w_res world1)) = 1 /\ r_size (w_res world3) = 2 /\ r_valid (w_res world3) = true /\ r_params (w_res world3) <> [] /\
  List.length (w_out world3) = 1 /\ 1 <= cas 1 (fst (releaseStatements (w_res world1))).
Proof.
  assert (P1 : exists c e, parse [] sql2 fresh_env = PRet c e) by (eexists _, _; vm_compute; reflexivity). destruct P1 as (c & e & P1).
  assert (S1 : step start world1) by (unfold world1; rewrite P1; eapply s_parse; [split; reflexivity|exact P1]).
  assert (S2 : step world1 world2) by (unfold world2; replace (fst (releaseStatements (w_res world1))) with (w_out world1 ++ fst (releaseStatements (w_res world1))) by (unfold world1; rewrite P1; reflexivity); destruct world1; apply s_release).
  assert (P2 : exists c e, parse_into [] sql1 (w_res world2) (w_env world2) = PRet c e) by (eexists _, _; vm_compute; reflexivity). destruct P2 as (c2 & e2 & P2).
  assert (S3 : step world2 world3). { unfold world3. rewrite P2. assert (Q : world2 = mkWorld (w_res world2) (w_env world2) (w_out world2)) by (now destruct world2). rewrite Q at 1. eapply s_parse; [split; vm_compute; reflexivity|exact P2]. }
  split; [exact (st_step _ _ _ S1 (st_refl _))|]. split; [exact (st_step _ _ _ S1 (st_step _ _ _ S2 (st_step _ _ _ S3 (st_refl _))))|].
  split; [vm_compute; reflexivity|]. split; [vm_compute; reflexivity|]. split; [vm_compute; reflexivity|]. split; [vm_compute; discriminate|]. split; [vm_compute; reflexivity|vm_compute; lia].
Qed.

(** ** C25: reusing a result object *)
(** The full statement (every sequence of parses into one object) is false, see C25_refuted: an old error message makes a later CREATE TABLE fail, and
    reset() keeps the parameters although their expressions are freed.  It holds in every state without message and parameters ([ready]): the verdict, the
    new statements and the number of parameters are those of a parse into a fresh object; earlier statements are kept in front. *)
Theorem C25_reuse_partial : forall w buf0 buf1 sql c e c' e', reachable w -> ready (w_res w) -> parse_into buf0 sql (w_res w) (w_env w) = PRet c e -> parse buf1 sql fresh_env = PRet c' e' ->
  e_valid e = e_valid e' /\
  (e_valid e = true -> map erase (e_stmts e) = map erase (r_stmts (w_res w)) ++ map erase (e_stmts e') /\ List.length (e_params e) = List.length (e_params e')).
Proof.
  intros w buf0 buf1 sql c e c' e' R [M P] E E'. destruct (reachable_ok w R) as [SR (lost & H)]. destruct (tokens_total sql) as (ts & T & EE & _). unfold parse_into in E.
  assert (H0 : heap (with_result (w_res w) (w_env w)) (fun x => cas x (e_stmts (with_result (w_res w) (w_env w))) + (cas x (w_out w) + lost x))).
  { apply with_result_heap. eapply heap_ext; [exact H|]. intro x. unfold owned. rewrite M. cbn [ca with_result e_stmts]. lia. }
  pose proof (@parse_valid buf0 sql ts (with_result (w_res w) (w_env w)) _ T M P H0 c e E) as V. pose proof (parse_valid (B := fun _ => 0) (e0 := fresh_env) T eq_refl eq_refl heap_fresh E') as V'.
  assert (VV : e_valid e = e_valid e'). { destruct (e_valid e), (e_valid e'); try reflexivity; [symmetry; apply V', V|apply V, V']; reflexivity. }
  split; [exact VV|]. intro VE. assert (VE' : e_valid e' = true) by congruence. apply V in VE. destruct VE as (l & n & MM).
  pose proof (proj2 (@parse_means buf0 sql ts (with_result (w_res w) (w_env w)) _ T M P H0 l n) MM) as (e2 & l2 & A1 & _ & A2 & A3 & A4). rewrite E in A1. injection A1 as _ <-.
  pose proof (proj2 (parse_means (B := fun _ => 0) buf1 (e0 := fresh_env) T eq_refl eq_refl heap_fresh l n) MM) as (e3 & l3 & B1 & _ & B2 & B3 & B4). rewrite E' in B1. injection B1 as _ <-.
  cbn [with_result e_stmts fresh_env app] in A2, B2. rewrite A2, map_app, A3, B2, B3. split; [reflexivity|congruence].
Qed.
(** The states this covers: fresh objects, and objects that were only used for successful parses without parameters; both also after reset,
    releaseStatements, and moves. *)
Lemma ready_reset r e r' e' : r_params r = [] -> reset r e = ROk r' e' -> ready r'.
Proof.
  unfold reset, bind, ret. intros P E. destruct (del_all (r_stmts r) e) as [? e1| |]; try discriminate. destruct (free_ (r_msg r) e1); try discriminate. injection E as <- _. split; [reflexivity|exact P].
Qed.
Lemma ready_parse w buf0 sql c e : reachable w -> ready (w_res w) -> parse_into buf0 sql (w_res w) (w_env w) = PRet c e -> e_valid e = true -> e_params e = [] -> ready (the_result e).
Proof.
  intros R [M P] E V PE. destruct (reachable_ok w R) as [SR (lost & H)]. destruct (tokens_total sql) as (ts & T & EE & _). unfold parse_into in E.
  assert (H0 : heap (with_result (w_res w) (w_env w)) (fun x => cas x (e_stmts (with_result (w_res w) (w_env w))) + (cas x (w_out w) + lost x))).
  { apply with_result_heap. eapply heap_ext; [exact H|]. intro x. unfold owned. rewrite M. cbn [ca with_result e_stmts]. lia. }
  pose proof (parse_inv buf0 T (e0 := with_result (w_res w) (w_env w)) M P H0) as O. rewrite E in O. cbn [parse_outcome] in O.
  destruct O as [(_ & _ & e1 & -> & (tl & semi & k & l2 & _ & _ & _ & EQ & _))|(_ & F & _)]; [|congruence]. destruct EQ as (_ & EM & _). split; [|exact PE]. cbn. rewrite EM. exact M.
Qed.
(** After a failed parse CREATE TABLE is rejected (without reset); after a parse with a parameter, reset() leaves a pointer to a freed expression in
    parameters(), and parsing two more parameters reads it. *)
Theorem C25_refuted :
  (exists sql sql' e c e', parse [] sql fresh_env = PRet 1 e /\ parse [] sql' e = PRet c e' /\ e_valid e' = false /\ (exists e2, parse [] sql' fresh_env = PRet 0 e2 /\ e_valid e2 = true)) /\
  (exists sql e r' e' a z, parse [] sql fresh_env = PRet 0 e /\ reset (the_result e) e = ROk r' e' /\ r_params r' = [(a, z)] /\ ~ In a (e_live e') /\
     parse_into [] sql r' e' = PUB UUseAfterFree).
Proof.
  split.
  - exists (la "SELECT FROM"), (la "CREATE TABLE t (a INT)"). eexists _, _, _. split; [vm_compute; reflexivity|]. split; [vm_compute; reflexivity|]. split; [vm_compute; reflexivity|]. eexists. split; vm_compute; reflexivity.
  - exists (la "SELECT ?"). eexists _, _, _, _, _. split; [vm_compute; reflexivity|]. split; [vm_compute; reflexivity|]. split; [vm_compute; reflexivity|]. split; [|vm_compute; reflexivity].
    vm_compute. tauto.
Qed.

(** ** C26: moving a result *)
(** The full statement is false, see C26_refuted: the position of the error and the parameters are not transferred, and what the target owned is
    lost.  What holds for all objects: validity, message and statements are transferred, no block is allocated or freed, the source is empty and
    invalid afterwards. *)
Theorem C26_move_partial : forall dst src e, exists dst' src',
  move_assign dst src e = ROk (dst', src') e /\ r_valid dst' = r_valid src /\ r_msg dst' = r_msg src /\ r_stmts dst' = r_stmts src /\ cleared src' /\
  (forall x, owned dst' x = owned src x) /\ (forall x, owned src' x = 0) /\
  (* the error position and the parameters do not move: the target keeps its own *)
  r_line dst' = r_line dst /\ r_col dst' = r_col dst /\ r_params dst' = r_params dst.
Proof.
  intros dst src e. eexists _, _. unfold move_assign, bind, ret. rewrite reset_empty by reflexivity. split; [reflexivity|]. repeat split.
Qed.
(** Move construction leaks nothing: everything that was owned by the source is owned by the new object. *)
Theorem C26_move_constructor : forall src e, exists new src',
  move_ctor src e = ROk (new, src') e /\ r_valid new = r_valid src /\ r_msg new = r_msg src /\ r_stmts new = r_stmts src /\ cleared src' /\ forall x, owned new x = owned src x.
Proof. intros src e. destruct (C26_move_partial (mkRes false [] VUninit VUninit VUninit []) src e) as (d & s & A & B & C & D & E & F & _). exists d, s. auto 10. Qed.
(** Destroying a moved-to and a moved-from object later is harmless: by C28, since the new object is reachable ([s_move]). *)
Theorem C26_refuted :
  (exists e1 e2 d s e3, parse [] (la "SELECT ?") fresh_env = PRet 0 e1 /\ parse_into [] (la "SELECT 'x'") ctor e1 = PRet 0 e2 /\
     (* the first result is moved into the second one *)
     move_assign (the_result e2) (the_result e1) e2 = ROk (d, s) e3 /\ r_params (the_result e1) <> [] /\ r_params d = [] /\
     exists a, In a (e_live e3) /\ owned (the_result e2) a = 1 /\ owned d a = 0 /\ owned s a = 0) /\
  (exists e1 d s e2, parse [] (la "SELECT") fresh_env = PRet 1 e1 /\ move_assign ctor (the_result e1) e1 = ROk (d, s) e2 /\ r_line (the_result e1) = VInt 0 /\ r_line d = VUninit).
Proof.
  split.
  - eexists _, _, _, _, _. split; [vm_compute; reflexivity|]. split; [vm_compute; reflexivity|]. split; [vm_compute; reflexivity|]. split; [vm_compute; discriminate|]. split; [vm_compute; reflexivity|].
    exists 8%N. split; [vm_compute; tauto|]. repeat split; vm_compute; reflexivity.
  - eexists _, _, _, _. split; [vm_compute; reflexivity|]. split; [vm_compute; reflexivity|]. split; vm_compute; reflexivity.
Qed.
