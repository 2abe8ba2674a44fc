(** Property C67: the memory account of a whole program: after any calls, what is allocated is what the objects and the statements of the program refer to, plus what
    the single calls lost; so a program that destroys everything leaves the sum of the losses.

    Vocabulary.  [history], [exec], [slot] (PropHistory.v, History.v): as for C45 and C66.  [loses], [cost]: what one call loses, and what a program has lost. *)
From Verif Require Import Move.
From Verif Require Import Script PropParse PropResult PropLeak History PropHistory PropMove.
From Coq Require Import ZifyBool ZifyNat ZifyN Permutation.
Local Open Scope nat_scope.

(** ** The blocks of a value, of an object, of a program *)
Fixpoint addresses (v : val) : list N :=
  match v with
  | VStr a _ => [a]
  | VObj a _ fs => a :: flat_map (fun p => addresses (snd p)) fs
  | VVec a l => a :: flat_map addresses l
  | VRec fs => flat_map (fun p => addresses (snd p)) fs
  | _ => []
  end.
Definition of_object (r : result) : list N := flat_map addresses (r_stmts r) ++ addresses (r_msg r).
Definition of_slots {A} (f : A -> list N) (l : list (option A)) : list N := flat_map (fun o => match o with Some a => f a | None => [] end) l.
Definition of_program (p : pool) : list N := of_slots of_object (p_objs p) ++ of_slots addresses (p_stmts p).
(** ** What one call loses *)
Inductive loses (p : pool) : call -> nat -> Prop :=
| l_assign i j r : slot i (p_objs p) = Some r -> loses p (Assign i j) (List.length (of_object r))                 (* r_i = std::move(r_j): what r_i had *)
| l_message i m l c r : slot i (p_objs p) = Some r -> loses p (SetError i m l c) (List.length (addresses (r_msg r)))  (* the message r_i had *)
| l_parse i buf0 sql q e e' : parse [] sql fresh_env = PRet q e -> destroy (the_result e) e = ROk tt e' -> loses p (Parse i buf0 sql) (List.length (e_live e'))  (* what a program loses that only makes this call and destroys the object: C55, C59, C62 *)
| l_none c : match c with Assign _ _ | SetError _ _ _ _ | Parse _ _ _ => False | _ => True end -> loses p c 0.
Inductive cost : list call -> pool -> nat -> Prop :=
| c_start : cost [] nothing 0
| c_call : forall cs p n c p' k, cost cs p n -> allowed c p -> exec c p = Done p' -> loses p c k -> cost (cs ++ [c]) p' (n + k).

(** ** Counting *)
Lemma cntN_app x l k : cntN x (l ++ k) = cntN x l + cntN x k.
Proof. induction l as [|a l IH]; cbn [app cntN]; lia. Qed.
Lemma ca_addresses x v : ca x v = cntN x (addresses v).
Proof.
  induction v as [| | | | | | |a c fs H|a l H|fs H] using val_ind2; try reflexivity; cbn [addresses].
  - cbn [ca cntN]. lia.
  - rewrite ca_obj. cbn [cntN]. enough (caf x fs = cntN x (flat_map (fun p => addresses (snd p)) fs)) by lia. induction H as [|[h y] fs H1 H IH]; [reflexivity|]. cbn [caf flat_map snd] in *. rewrite cntN_app. lia.
  - rewrite ca_vec. cbn [cntN]. enough (cas x l = cntN x (flat_map addresses l)) by lia. induction H as [|y l H1 H IH]; [reflexivity|]. cbn [cas flat_map] in *. rewrite cntN_app. lia.
  - rewrite ca_rec. induction H as [|[h y] fs H1 H IH]; [reflexivity|]. cbn [caf flat_map snd] in *. rewrite cntN_app. lia.
Qed.
Lemma cas_addresses x l : cas x l = cntN x (flat_map addresses l).
Proof. induction l as [|v l IH]; [reflexivity|]. cbn [cas flat_map]. rewrite cntN_app, ca_addresses. lia. Qed.
Lemma owned_addresses x r : owned r x = cntN x (of_object r).
Proof. unfold owned, of_object. rewrite cntN_app, cas_addresses, ca_addresses. reflexivity. Qed.
Lemma sumo_addresses A (f : A -> nat) (g : A -> list N) x : (forall a, f a = cntN x (g a)) -> forall l, sumo f l = cntN x (of_slots g l).
Proof. intros E l. induction l as [|[a|] l IH]; cbn [sumo of_slots flat_map]; [reflexivity| |exact IH]. rewrite cntN_app, E, IH. reflexivity. Qed.
Lemma held_addresses p x : held p x = cntN x (of_program p).
Proof. unfold held, of_program. rewrite cntN_app. f_equal; apply sumo_addresses; intro; [apply owned_addresses|apply ca_addresses]. Qed.
Lemma cntN_perm l k : Permutation l k -> forall x, cntN x l = cntN x k.
Proof. induction 1 as [|a l k H IH|a b l|l k m H1 IH1 H2 IH2]; intro x; cbn [cntN]; [reflexivity|rewrite IH; lia|lia|rewrite IH1; apply IH2]. Qed.
Lemma perm_cntN : forall k l, (forall x, cntN x k = cntN x l) -> Permutation k l.
Proof.
  induction k as [|a k IH]; intros l P.
  - destruct l as [|b l]; [constructor|]. specialize (P b). cbn [cntN] in P. rewrite ind_refl in P. lia.
  - assert (M : memN a l = true) by (apply cntN_mem; rewrite <- P; cbn [cntN]; rewrite ind_refl; lia).
    transitivity (a :: removeN a l).
    + constructor. apply IH. intro x. pose proof (cntN_remove x M) as R. specialize (P x). cbn [cntN] in P. lia.
    + clear -M. induction l as [|b l IH]; [discriminate M|]. cbn [memN removeN] in *. destruct (N.eqb_spec a b) as [->|NE]; [reflexivity|]. rewrite perm_swap. constructor. apply IH. exact M.
Qed.
Lemma addresses_mv g v : addresses (mv g v) = map g (addresses v).
Proof.
  assert (F : forall fs, Forall (fun p : fld * val => addresses (mv g (snd p)) = map g (addresses (snd p))) fs -> flat_map (fun p => addresses (snd p)) (map (fun p => (fst p, mv g (snd p))) fs) = map g (flat_map (fun p : fld * val => addresses (snd p)) fs)).
  { induction 1 as [|[h y] fs H1 H IH]; [reflexivity|]. cbn [map flat_map fst snd] in *. rewrite map_app, H1, IH. reflexivity. }
  induction v as [| | | | | | |a c fs H|a l H|fs H] using val_ind2; try reflexivity; cbn [mv addresses map]; [f_equal; now apply F| |now apply F].
  f_equal. induction H as [|y l H1 H IH]; [reflexivity|]. cbn [map flat_map] in *. rewrite map_app, H1, IH. reflexivity.
Qed.
Lemma flat_mv g l : flat_map addresses (map (mv g) l) = map g (flat_map addresses l).
Proof. induction l as [|v l IH]; [reflexivity|]. cbn [map flat_map]. rewrite map_app, addresses_mv, IH. reflexivity. Qed.

(** ** One call *)
Definition lost_list (p : pool) (l : list N) : Prop := pool_ok p (fun x => cntN x l).
Lemma parse_loses os ss e0 l i buf0 sql r q e e' p' : lost_list (mkPool os ss e0) l -> allowed (Parse i buf0 sql) (mkPool os ss e0) -> slot i os = Some r ->
  exec (Parse i buf0 sql) (mkPool os ss e0) = Done p' -> parse [] sql fresh_env = PRet q e -> destroy (the_result e) e = ROk tt e' -> exists k, lost_list p' (l ++ k) /\ List.length k = List.length (e_live e').
Proof.
  intros O AL SL EX P D. pose proof AL as [_ [RD _]]. cbn [p_objs] in RD. specialize (RD r SL).
  destruct (call_ok _ _ _ O AL) as (p2 & E2 & lost' & O' & _). rewrite EX in E2. injection E2 as <-.
  destruct (pool_heap _ _ i r O SL RD) as (f & HF). pose proof (parse_elsewhere r e0 f buf0 [] sql RD HF) as A. rewrite P in A. destruct A as (ez & e2 & EP & V & A & B). destruct (after_both _ _ _ _ _ _ r A B V eq_refl) as ((_ & C2 & C3 & _) & L & _). clear A B.
  unfold exec in EX. rewrite SL, EP in EX. injection EX as <-. destruct (tokens_total sql) as (ts & T & _). destruct (parse_sound T P) as (SR & l0 & H0 & _). destruct (destroy_ok SR H0) as (e3 & D2 & H3). rewrite D in D2. injection D2 as <-.
  assert (PM : Permutation (e_live e) (of_object (the_result e) ++ e_live e')).
  { apply perm_cntN. intro x. rewrite cntN_app, (heap_live H0), (heap_live H3), owned_addresses. reflexivity. }
  exists (map (moved (e_next e0)) (e_live e')). split; [|apply map_length]. destruct O' as [O1 O2 O3]. constructor; [exact O1|exact O2|]. eapply heap_ext; [exact O3|]. intro x. cbn beta.
  pose proof (heap_live O3 x) as HL. pose proof (heap_live (po_heap _ _ O) x) as HL0. cbn [p_env] in HL, HL0. rewrite L, cntN_app in HL. rewrite (cntN_perm _ _ (Permutation_map (moved (e_next e0)) PM) x), map_app, cntN_app in HL. rewrite cntN_app.
  unfold held in *. cbn [p_objs p_stmts] in *. rewrite (put_back x i r (the_result e2) os SL) in *. pose proof (upd_obj0 x i r os SL) as Q.
  assert (OW : owned (the_result e2) x = owned r x + cntN x (map (moved (e_next e0)) (of_object (the_result e)))).
  { destruct RD as [M _]. unfold owned at 1. rewrite C2, C3. unfold owned, of_object. rewrite M. cbn [ca]. rewrite cas_app, cas_addresses, ca_addresses, cas_addresses, flat_mv, addresses_mv, map_app, cntN_app. cbn [the_result r_stmts r_msg]. lia. }
  lia.
Qed.
Lemma call_loses c p l n p' : lost_list p l -> allowed c p -> exec c p = Done p' -> loses p c n -> exists k, lost_list p' (l ++ k) /\ List.length k = n.
Proof.
  intros O AL EX LO. inversion LO as [i j r SI|i m ln c0 r SL|i buf0 sql q e e' P D|c0 N]; subst.
  - exists (of_object r). split; [|reflexivity]. destruct p as [os ss e]. destruct O as [PO PS PH]. cbn [p_objs p_stmts p_env] in *. unfold exec in EX. destruct (i =? j) eqn:EIJ; [discriminate EX|]. rewrite SI in EX. destruct (slot j os) as [s|] eqn:SJ; [|discriminate EX].
    destruct (C26_move_partial r s e) as (d' & r' & E & _ & A2 & A3 & (_ & C2 & C3 & _) & A4 & A5 & _). rewrite E in EX. cbn [done] in EX. injection EX as <-.
    pose proof (all_slot _ _ _ _ _ PO SJ) as [W1 W2]. assert (CO : r_stmts r' = []) by (now apply length_zero_iff_nil). constructor; cbn [p_objs p_stmts p_env].
    + apply all_upd; [apply all_upd; [exact PO|split; [rewrite CO; constructor|now left]]|split; [now rewrite A3|now rewrite A2]].
    + exact PS.
    + eapply heap_ext; [exact PH|]. intro x. rewrite cntN_app, <- owned_addresses. unfold held. cbn [p_objs p_stmts]. assert (SI' : slot i (upd j (Some r') os) = Some r) by (rewrite slot_upd; [exact SI|lia]).
      pose proof (upd_obj x i r d' _ SI'). pose proof (upd_obj x j s r' os SJ). specialize (A4 x). specialize (A5 x). lia.
  - exists (addresses (r_msg r)). split; [|reflexivity]. destruct p as [os ss e]. destruct O as [PO PS PH]. cbn [p_objs p_stmts p_env] in *. unfold exec in EX. rewrite SL in EX.
    destruct (alloc_spec PH) as (_ & e' & E & H' & _). unfold snew, bind, ret in EX. rewrite E in EX. cbn [done] in EX. injection EX as <-. pose proof (all_slot _ _ _ _ _ PO SL) as [W1 W2]. constructor; cbn [p_objs p_stmts p_env].
    + apply all_upd; [exact PO|split; [exact W1|right; eexists _, _; reflexivity]].
    + exact PS.
    + eapply heap_ext; [exact H'|]. intro x. rewrite cntN_app, <- ca_addresses. unfold held. cbn [p_objs p_stmts]. match goal with |- context [upd i (Some ?r') os] => pose proof (upd_obj x i r r' os SL) as Q end. unfold owned in Q at 2 4. cbn [setErrorDetails r_stmts r_msg ca] in Q. lia.
  - destruct p as [os ss e0]. pose proof AL as [NM _]. unfold exec in NM. destruct (slot i os) as [r|] eqn:SL; [|congruence]. exact (parse_loses os ss e0 l i buf0 sql r q e e' p' O AL SL EX P D).
  - exists []. split; [|reflexivity]. rewrite app_nil_r. destruct (call_ok _ _ _ O AL) as (p2 & E2 & lost' & [O1 O2 O3] & L). rewrite EX in E2. injection E2 as <-. constructor; [exact O1|exact O2|]. eapply heap_ext; [exact O3|]. intro x. cbn beta.
    rewrite L; [reflexivity|]. destruct c; try exact Logic.I; destruct N.
Qed.

(** ** C67 *)
(** What is allocated is what the program refers to, and the sum of what its calls lost. *)
Theorem C67_account_of_a_program : forall cs p n, cost cs p n -> exists lost, Permutation (e_live (p_env p)) (of_program p ++ lost) /\ List.length lost = n.
Proof.
  intros cs p n H. assert (G : exists l, lost_list p l /\ List.length l = n).
  { induction H as [|cs p n c p' k H (l & O & LE) A E LO]; [exists []; split; [exact nothing_ok|reflexivity]|]. destruct (call_loses c p l k p' O A E LO) as (w & O' & W). exists (l ++ w). split; [exact O'|]. rewrite app_length. lia. }
  destruct G as (l & O & LE). exists l. split; [|exact LE]. apply perm_cntN. intro x. rewrite (heap_live (po_heap _ _ O) x), cntN_app, held_addresses. reflexivity.
Qed.
(** Every program has such an account; so its total is determined by its calls. *)
Theorem C67_every_program_has_one : forall cs p, history cs p -> exists n, cost cs p n.
Proof.
  induction 1 as [|cs p c p' H (n & C) A E]; [exists 0; constructor|]. enough (LO : exists k, loses p c k) by (destruct LO as (k & LO); exists (n + k); econstructor; eassumption).
  pose proof A as [NM _]. destruct c as [|m|j|i j|i buf0 sql|i|i|i m|i b|i m l c|i|m]; try (exists 0; constructor; exact Logic.I); destruct p as [os ss e]; unfold exec in NM.
  - destruct (i =? j); [congruence|]. destruct (slot i os) as [r|] eqn:SL; [|congruence]. eexists. econstructor. exact SL.
  - destruct A as [_ [_ NH]]. destruct (tokens_total sql) as (ts & T & _). pose proof (parse_fresh [] T) as F. destruct (parse [] sql fresh_env) as [q e2|u|] eqn:P; [|exfalso; exact (no_overflow _ _ _ NH T F)|destruct F].
    destruct (parse_sound T P) as (SR & l0 & H0 & _). destruct (destroy_ok SR H0) as (e3 & D & _). eexists. econstructor; eassumption.
  - destruct (slot i os) as [r|] eqn:SL; [|congruence]. eexists. econstructor. exact SL.
Qed.
(** When nothing is left, what is still allocated is exactly what was lost. *)
Theorem C67_what_remains : forall cs p n, cost cs p n -> (forall i, slot i (p_objs p) = None) -> (forall k, slot k (p_stmts p) = None) -> List.length (e_live (p_env p)) = n.
Proof.
  intros cs p n H N1 N2. destruct (C67_account_of_a_program cs p n H) as (l & P & <-). rewrite (Permutation_length P), app_length.
  assert (Z : forall A (f : A -> list N) m, (forall i, slot i m = None) -> of_slots f m = []).
  { intros A f m. induction m as [|[a|] m IH]; intro N; [reflexivity|specialize (N 0); discriminate N|]. apply IH. intro i. exact (N (S i)). }
  unfold of_program. rewrite !Z by assumption. reflexivity.
Qed.

(** ** A program that loses a block in a parse, a statement in an assignment and a message: what it leaves. *)
Definition prog67 : list call :=
  [New; New; Parse 0 [] (la "SELECT a[1], b[2] FROM t"); Parse 1 [] (la "UPDATE t SET a = 1, b = 2 WHERE )"); SetError 1 (la "mine") 1 2; Reset 1; Parse 1 [] (la "DROP TABLE t"); Assign 0 1; Destroy 0; Destroy 1].
Definition allowedb (c : call) (p : pool) : bool :=
  match c with
  | Parse i _ sql => match slot i (p_objs p) with Some r => nullb (r_msg r) && is_nil (r_params r) | None => false end && short sql
  | _ => true
  end.
Fixpoint playb (cs : list call) (p : pool) : option pool := match cs with [] => Some p | c :: cs' => if allowedb c p then match exec c p with Done p' => playb cs' p' | _ => None end else None end.
Lemma playb_ok : forall cs cs0 p p', history cs0 p -> playb cs p = Some p' -> history (cs0 ++ cs) p'.
Proof.
  induction cs as [|c cs IH]; intros cs0 p p' H E; cbn [playb] in E; [injection E as <-; now rewrite app_nil_r|]. destruct (allowedb c p) eqn:G; [|discriminate E].
  destruct (exec c p) as [p1| |] eqn:EX; try discriminate E. replace (cs0 ++ c :: cs) with ((cs0 ++ [c]) ++ cs) by (rewrite <- app_assoc; reflexivity). apply (IH _ p1); [|exact E]. econstructor; [exact H| |exact EX].
  unfold allowed. rewrite EX. split; [discriminate|]. destruct c; try exact Logic.I. cbn [allowedb] in G. apply andb_prop in G as [G1 G2]. split; [|now apply short_no_huge].
  intros r SL. rewrite SL in G1. apply andb_prop in G1 as [H1 H2]. split; [now apply nullb_ok|now apply is_nil_ok].
Qed.
(** Two blocks for the element accesses, four for the broken UPDATE, one message, and the statement overwritten (with a table, two expressions, their names and lists). *)
Definition sizes67 : option (list nat) := match playb (firstn 7 prog67) nothing with Some p => Some (map (fun o => match o with Some r => List.length (of_object r) | None => 0 end) (p_objs p)) | None => None end.
Example C67_example : exists p n, history prog67 p /\ cost prog67 p n /\ (forall i, slot i (p_objs p) = None) /\ n = List.length (e_live (p_env p)) /\ n = 2 + 4 + 1 + 10 /\ sizes67 = Some [10; 2].
Proof.
  destruct (playb prog67 nothing) as [p|] eqn:E; [|vm_compute in E; discriminate E]. pose proof (playb_ok _ [] nothing p h_start E) as H. destruct (C67_every_program_has_one _ _ H) as (n & C). exists p, n.
  assert (Q : match playb prog67 nothing with Some p => (p_objs p, p_stmts p, List.length (e_live (p_env p))) | None => ([], [], 0) end = ([None; None], [], 17)) by (vm_compute; reflexivity). rewrite E in Q. injection Q as Q1 Q2 Q3.
  assert (N : forall i, slot i (p_objs p) = None) by (intro i; rewrite Q1; destruct i as [|[|[|i]]]; reflexivity).
  assert (N2 : forall i, slot i (p_stmts p) = None) by (intro i; rewrite Q2; destruct i; reflexivity).
  pose proof (C67_what_remains _ _ _ C N N2) as L. split; [exact H|]. split; [exact C|]. split; [exact N|]. split; [congruence|]. split; [rewrite <- L, Q3; reflexivity|]. vm_compute. reflexivity.
Qed.
