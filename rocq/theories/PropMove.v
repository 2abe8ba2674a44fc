(** Property C66: the place of a call in a program and its surroundings do not matter: a parse does in every machine, into every object without message and
    parameters, exactly what it does at the start of a program, at other addresses.

    Vocabulary.  [history cs p], [exec], [slot] (PropHistory.v, History.v): the programs, their calls, objects and machine; [ready r] (PropResult.v): the object has no message
    and no parameters.  [mv g v] (Move.v): the value [v] with every block at another address, [g a] instead of [a], and unchanged otherwise.
    [e_next]: the lowest address never used; [e_live]: the allocated blocks. *)
From Verif Require Import Move.
From Verif Require Import Script PropParse PropResult History PropHistory.
From Coq Require Import ZifyBool ZifyNat ZifyN.
Local Open Scope nat_scope.

(** ** Addresses *)
(** Where the block lies that a parse at the start of a program (whose first address is 1) puts at [a], if the first unused address is [d]. *)
Definition moved (d a : N) : N := (a - 1 + d)%N.
(** What the parse that ended in [e] (started on a fresh object at the start of a program) leaves in an object that was [r], in a machine whose first unused address was [d]. *)
Definition copied (d : N) (e : env) (r r' : result) : Prop :=
  r_valid r' = e_valid e /\ r_stmts r' = r_stmts r ++ map (mv (moved d)) (e_stmts e) /\ r_msg r' = mv (moved d) (e_msg e) /\
  (e_msg e = VNull \/ (r_line r' = e_line e /\ r_col r' = e_col e)) /\ r_params r' = map (mvp (moved d)) (e_params e).

Lemma mv_mv f g v : mv f (mv g v) = mv (fun a => f (g a)) v.
Proof.
  induction v as [| | | | | | |a c fs H|a l H|fs H] using val_ind2; cbn [mv]; try reflexivity.
  - f_equal. rewrite map_map. induction H as [|[h y] fs H1 H IH]; [reflexivity|]. cbn [map fst snd] in *. now rewrite H1, IH.
  - f_equal. rewrite map_map. induction H as [|y l H1 H IH]; [reflexivity|]. cbn [map] in *. now rewrite H1, IH.
  - f_equal. rewrite map_map. induction H as [|[h y] fs H1 H IH]; [reflexivity|]. cbn [map fst snd] in *. now rewrite H1, IH.
Qed.
Lemma mv_ext f g v : (forall a, f a = g a) -> mv f v = mv g v.
Proof.
  intro E. induction v as [| | | | | | |a c fs H|a l H|fs H] using val_ind2; cbn [mv]; try reflexivity; [now rewrite E|rewrite E; f_equal..|f_equal].
  - induction H as [|[h y] fs H1 H IH]; [reflexivity|]. cbn [map fst snd] in *. now rewrite H1, IH.
  - induction H as [|y l H1 H IH]; [reflexivity|]. cbn [map] in *. now rewrite H1, IH.
  - induction H as [|[h y] fs H1 H IH]; [reflexivity|]. cbn [map fst snd] in *. now rewrite H1, IH.
Qed.
(** Without addresses nothing changes. *)
Lemma erase_mv g v : erase (mv g v) = erase v.
Proof.
  assert (F : forall fs, Forall (fun p : fld * val => erase (mv g (snd p)) = erase (snd p)) fs -> erase_fields (map (fun p => (fst p, mv g (snd p))) fs) = erase_fields fs).
  { induction 1 as [|[h y] fs H1 H IH]; [reflexivity|]. cbn [map erase_fields fst snd] in *. unfold erase_fields in IH. cbn [erase_fields map fst snd]. rewrite IH, H1. reflexivity. }
  induction v as [| | | | | | |a c fs H|a l H|fs H] using val_ind2; try reflexivity.
  - cbn [mv]. rewrite !Poke.erase_obj_def. now rewrite F.
  - cbn [mv erase]. f_equal. induction H as [|y l H1 H IH]; [reflexivity|]. cbn [map] in *. now rewrite H1, IH.
  - cbn [mv]. rewrite !Poke.erase_rec_def. now rewrite F.
Qed.

Lemma live_small e f x : heap e f -> In x (e_live e) -> (x < e_next e)%N.
Proof.
  intros H I. apply (heap_next H). rewrite <- (heap_live H). apply cntN_mem. clear - I. induction (e_live e) as [|y l IH]; [destruct I|]. cbn [memN]. destruct I as [->|I]; [now rewrite N.eqb_refl|]. rewrite (IH I). apply orb_true_r.
Qed.
(** ** The machine without anything *)
Definition zero_env : env := mkEnv 0 [] false [] VNull VUninit VUninit [] [] (mkLoc 0 0 0 0) pos0.
Notation Rel0 := (Move.R false).
Lemma fresh_rel : Rel0 1%N [] [] (parse_env zero_env) (parse_env fresh_env).
Proof. constructor; cbn; auto. Qed.
Lemma place_rel r e0 : ready r -> Rel0 (e_next e0) (e_live e0) (r_stmts r) (parse_env zero_env) (parse_env (with_result r e0)).
Proof. intros [M P]. constructor; cbn [zero_env parse_env set_plist set_lpos with_result e_next e_live e_stmts e_msg e_line e_col e_params e_plist e_loc e_lpos map]; auto; [now rewrite app_nil_r|intros []]. Qed.
Lemma parse_elsewhere r e0 f buf0 buf1 sql : ready r -> heap e0 (fun x => cas x (r_stmts r) + f x) ->
  match parse buf1 sql fresh_env with
  | PRet c e => exists ez e', parse_into buf0 sql r e0 = PRet c e' /\ e_valid e' = e_valid e /\ Rel0 1%N [] [] ez e /\ Rel0 (e_next e0) (e_live e0) (r_stmts r) ez e'
  | PUB u => parse_into buf0 sql r e0 = PUB u
  | PFuel => parse_into buf0 sql r e0 = PFuel
  end.
Proof.
  intros RD H. assert (LS : forall x, In x (e_live e0) -> (x < e_next e0)%N).
  { intros x I. exact (live_small _ _ _ H I). }
  assert (SS : forall x, (e_next e0 <= x)%N -> cas x (r_stmts r) = 0).
  { intros x L. destruct (cas x (r_stmts r)) eqn:E; [reflexivity|]. assert (N : (x < e_next e0)%N) by (apply (heap_next H); rewrite E; lia). lia. }
  assert (L0 : forall x, In x (@nil N) -> (x < 1)%N) by (intros x []). assert (S0 : forall x, (1 <= x)%N -> cas x [] = 0) by reflexivity.
  pose proof (@q_parse 1%N [] [] L0 S0 [] buf1 sql _ _ fresh_rel) as A. pose proof (@q_parse (e_next e0) (e_live e0) (r_stmts r) LS SS [] buf0 sql _ _ (place_rel r e0 RD)) as B.
  unfold parse_into. unfold ret3 in A, B.
  assert (V : forall buf c z e, parse buf sql z = PRet c e -> e_valid e = (c =? 0)%Z).
  { intros buf c z e. unfold parse. destruct (lex_all buf sql); [|discriminate]. destruct (yyparse _ z); try discriminate. intro E. injection E as <- <-. reflexivity. }
  destruct (parse [] sql zero_env) as [c ez|u|], (parse buf1 sql fresh_env) as [c1 e|u1|] eqn:E1; try (exfalso; exact A); destruct (parse buf0 sql (with_result r e0)) as [c2 e'|u2|] eqn:E2; try (exfalso; exact B); try congruence.
  destruct A as [-> A], B as [-> B]. exists ez, e'. rewrite (V _ _ _ _ E1), (V _ _ _ _ E2). auto.
Qed.

(** ** C66 *)
Lemma mv_moved d v : mv (moved d) (mv (fun a => (a + 1)%N) v) = mv (fun a => (a + d)%N) v.
Proof. rewrite mv_mv. apply mv_ext. intro a. unfold moved. lia. Qed.
Lemma maps_moved d l : map (mv (moved d)) (map (mv (fun a => (a + 1)%N)) l) = map (mv (fun a => (a + d)%N)) l.
Proof. rewrite map_map. apply map_ext. intro v. apply mv_moved. Qed.
Lemma after_both d L S ez e e' r : Rel0 1%N [] [] ez e -> Rel0 d L S ez e' -> e_valid e' = e_valid e -> r_stmts r = S ->
  copied d e r (the_result e') /\ e_live e' = map (moved d) (e_live e) ++ L /\ (forall a, In a (e_live e) -> (1 <= a)%N).
Proof.
  intros [A1 A2 A3 A4 A5 A6 _ _ _] [B1 B2 B3 B4 B5 B6 _ _ _] V ES. rewrite app_nil_r in A2. cbn [app] in A3. split; [|split].
  - unfold copied, the_result. cbn [r_valid r_stmts r_msg r_line r_col r_params]. split; [exact V|]. rewrite A3, maps_moved, A4, mv_moved, A6, map_map. split; [now rewrite ES|]. split; [exact B4|].
    split; [|rewrite B6; apply map_ext; intros [a z]; unfold mvp, moved; cbn; f_equal; lia].
    destruct A5 as [A5|[A5 A5']]; [left; now rewrite A5|]. destruct B5 as [B5|[B5 B5']]; [left; now rewrite B5|]. right. split; congruence.
  - rewrite B2, A2, map_map. f_equal. apply map_ext. intro a. unfold moved. lia.
  - intros a I. rewrite A2 in I. apply in_map_iff in I as (b & <- & _). lia.
Qed.
Lemma slot_put A i (x y : A) l : slot i l = Some x -> slot i (upd i (Some y) l) = Some y.
Proof. revert l. induction i as [|i IH]; intros [|z l] E; try discriminate E; cbn [upd]; [reflexivity|]. rewrite slot_cons in *. auto. Qed.
Lemma pool_heap p lost i r : pool_ok p lost -> slot i (p_objs p) = Some r -> ready r -> exists f, heap (p_env p) (fun x => cas x (r_stmts r) + f x).
Proof.
  intros O SL [M _]. exists (fun x => sumo (fun r => owned r x) (upd i None (p_objs p)) + sumo (ca x) (p_stmts p) + lost x). eapply heap_ext; [exact (po_heap _ _ O)|]. intro x. unfold held.
  pose proof (upd_obj0 x i r _ SL) as Q. unfold owned in Q at 2. rewrite M in Q. cbn [ca] in Q. lia.
Qed.
(** Every call parse(sql, &r) of every program: it is defined if and only if the same call is at the start of a program; then the object gets the verdict, the statements
    (after those it had), the message with its position and the parameters of that call, and the same blocks are allocated, at addresses not in use; nothing else changes. *)
Theorem C66_same_call_elsewhere : forall cs p i r buf0 buf1 sql, history cs p -> slot i (p_objs p) = Some r -> ready r ->
  match parse buf1 sql fresh_env with
  | PRet c e => exists p' r', exec (Parse i buf0 sql) p = Done p' /\ slot i (p_objs p') = Some r' /\ copied (e_next (p_env p)) e r r' /\
      (forall k, k <> i -> slot k (p_objs p') = slot k (p_objs p)) /\ p_stmts p' = p_stmts p /\
      e_live (p_env p') = map (moved (e_next (p_env p))) (e_live e) ++ e_live (p_env p) /\
      (forall a, In a (e_live e) -> (1 <= a)%N /\ ~ In (moved (e_next (p_env p)) a) (e_live (p_env p)))
  | PUB u => exec (Parse i buf0 sql) p = Undefined u
  | PFuel => False
  end.
Proof.
  intros cs p i r buf0 buf1 sql H SL RD. destruct (history_ok cs p H) as (lost & O). destruct (pool_heap p lost i r O SL RD) as (f & HF). pose proof (parse_elsewhere r (p_env p) f buf0 buf1 sql RD HF) as A.
  destruct (tokens_total sql) as (ts & T & _). pose proof (parse_fresh buf1 T) as PF. destruct p as [os ss e0]. unfold exec. cbn [p_objs p_stmts p_env] in *. rewrite SL.
  destruct (parse buf1 sql fresh_env) as [c e|u|]; [|now rewrite A|destruct PF]. destruct A as (ez & e' & -> & V & A & B). destruct (after_both _ _ _ _ _ _ r A B V eq_refl) as (C & L & G).
  eexists _, (the_result e'). split; [reflexivity|]. cbn [p_objs p_stmts p_env]. split; [eapply slot_put; exact SL|]. split; [exact C|]. split; [intros k K; now apply slot_upd|]. split; [reflexivity|]. split; [exact L|].
  intros a I. split; [exact (G a I)|]. intro J. assert (X : (moved (e_next e0) a < e_next e0)%N) by exact (live_small _ _ _ HF J). unfold moved in X. specialize (G a I). lia.
Qed.
(** So nothing that does not look at addresses can tell the two calls apart, whether the input is valid or not. *)
Theorem C66_nothing_but_addresses : forall d e r r', copied d e r r' ->
  map erase (r_stmts r') = map erase (r_stmts r) ++ map erase (e_stmts e) /\ erase (r_msg r') = erase (e_msg e) /\ List.length (r_params r') = List.length (e_params e) /\ map snd (r_params r') = map snd (e_params e).
Proof.
  intros d e r r' (_ & -> & -> & _ & ->). rewrite map_app, map_map. split; [f_equal; apply map_ext; intro v; apply erase_mv|]. split; [apply erase_mv|]. split; [apply map_length|]. rewrite map_map. reflexivity.
Qed.

(** ** A call in the middle of a program: the object has a statement already, the machine has been used, the input is broken after a leak. *)
Definition prog66 : list call := [New; New; Parse 0 [] hsql1; Release 0; Parse 1 [] hsql3].
Definition sql66 : bytes := la "DELETE FROM s.t; SELECT a[1] FROM 'x'".
Definition pool66 : option pool := play prog66 nothing.
Example C66_example : exists p r c e, history prog66 p /\ slot 1 (p_objs p) = Some r /\ ready r /\ r_size r = 1 /\ 5 <= List.length (e_live (p_env p)) /\
  parse [] sql66 fresh_env = PRet c e /\ e_valid e = false /\ List.length (e_live e) = 2 /\ (exists a s, e_msg e = VStr a s /\ a <> moved (e_next (p_env p)) a).
Proof.
  assert (G : match play prog66 nothing, parse [] sql66 fresh_env with Some p, PRet c e => match slot 1 (p_objs p) with Some r => nullb (r_msg r) && is_nil (r_params r) && (r_size r =? 1) && (5 <=? List.length (e_live (p_env p))) && negb (e_valid e) && (List.length (e_live e) =? 2) && match e_msg e with VStr a _ => negb (a =? moved (e_next (p_env p)) a)%N | _ => false end | None => false end | _, _ => false end = true) by (vm_compute; reflexivity).
  pose proof (fun p => play_ok prog66 [] nothing p t_start h_start) as HI. remember (play prog66 nothing) as o eqn:E. clear E. remember (parse [] sql66 fresh_env) as pp eqn:E2. clear E2.
  destruct o as [p|]; [|discriminate G]. destruct pp as [c e| |]; try discriminate G. destruct (HI p eq_refl) as [_ H]. clear HI. change ([] ++ prog66) with prog66 in H. destruct (slot 1 (p_objs p)) as [r|] eqn:ES; [|discriminate G].
  rewrite !andb_true_iff in G. destruct G as [[[[[[G1 G2] G3] G4] G5] G6] G7]. exists p, r, c, e. split; [exact H|]. split; [exact ES|]. split; [split; [now apply nullb_ok|now apply is_nil_ok]|].
  split; [now apply Nat.eqb_eq|]. split; [now apply Nat.leb_le|]. split; [reflexivity|]. split; [now apply negb_true_iff|]. split; [now apply Nat.eqb_eq|].
  destruct (e_msg e) eqn:EM; try discriminate G7. eexists _, _. split; [reflexivity|]. intro X. rewrite <- X, N.eqb_refl in G7. discriminate G7.
Qed.
