(** Property C45: programs that use any number of result objects in any order.

    Vocabulary.  [call], [exec], [pool] (History.v): the calls a program can make, what they do, and the objects, statements and machine it works with;
    [nothing]: the start of the program.  [owned r x] (ParseProof.v), [ca x v] (Own.v): how often block [x] is reachable from the statements and the message of [r],
    from the value [v].  [e_live e]: the allocated blocks; freeing or reading any other block is [Undefined]. *)
From Verif Require Import Script PropParse PropResult History.
From Coq Require Import ZifyBool ZifyNat ZifyN.
Local Open Scope nat_scope.

(** ** The contract of the calls *)
(** No string literal of the input begins with a number outside the range of int (see C02_refuted). *)
Definition no_huge (sql : bytes) : Prop := forall ts t s, tokens sql ts -> In t ts -> t_code t = TOK_STRING -> t_val t = TVStr s -> ~ huge_number s.
(** A program may name only what it has, and may parse into objects without message and parameters only (see C25_refuted). *)
Definition allowed (c : call) (p : pool) : Prop :=
  exec c p <> Misuse /\ match c with Parse i _ sql => (forall r, slot i (p_objs p) = Some r -> ready r) /\ no_huge sql | _ => True end.
(** Calls that cannot lose memory: nothing is overwritten that owns something, and only inputs are parsed that do not leak (C23): valid ones without '[' and
    INDEX, and invalid ones without WITH, FOR, UPDATE, CREATE and '['. *)
Definition without (l : list N) (sql : bytes) : Prop := forall ts t, tokens sql ts -> In t ts -> ~ In (sym_of t) l.
Definition tidy (c : call) (p : pool) : Prop :=
  match c with
  | Assign i _ => forall r, slot i (p_objs p) = Some r -> r_stmts r = [] /\ r_msg r = VNull
  | SetError i _ _ _ => forall r, slot i (p_objs p) = Some r -> r_msg r = VNull
  | Parse i _ sql => without [S_lbrack; S_INDEX] sql /\
      forall buf0 q e, parse buf0 sql fresh_env = PRet q e -> e_valid e = false -> without [S_WITH; S_FOR; S_UPDATE; S_CREATE] sql
  | _ => True
  end.
(** [history cs p]: the program made the calls [cs] (each as agreed) and is now in [p]. *)
Inductive history : list call -> pool -> Prop :=
| h_start : history [] nothing
| h_call : forall cs p c p', history cs p -> allowed c p -> exec c p = Done p' -> history (cs ++ [c]) p'.
Inductive tidy_history : list call -> pool -> Prop :=
| t_start : tidy_history [] nothing
| t_call : forall cs p c p', tidy_history cs p -> allowed c p -> tidy c p -> exec c p = Done p' -> tidy_history (cs ++ [c]) p'.

(** ** Accounts *)
Fixpoint sumo {A} (f : A -> nat) (l : list (option A)) : nat := match l with [] => 0 | Some a :: l' => f a + sumo f l' | None :: l' => sumo f l' end.
(** How often block [x] is reachable from the objects and the statements of the program. *)
Definition held (p : pool) (x : N) : nat := sumo (fun r => owned r x) (p_objs p) + sumo (ca x) (p_stmts p).

Lemma sumo_app A (f : A -> nat) l m : sumo f (l ++ m) = sumo f l + sumo f m.
Proof. induction l as [|[a|] l IH]; cbn [app sumo]; lia. Qed.
Lemma sumo_Some A (f : A -> nat) l : sumo f (map Some l) = fold_right (fun a n => f a + n) 0 l.
Proof. induction l; cbn [map sumo fold_right]; lia. Qed.
Lemma cas_fold x l : fold_right (fun a n => ca x a + n) 0 l = cas x l.
Proof. induction l; cbn [fold_right cas]; lia. Qed.
Lemma slot_cons A i (x : option A) l : slot (S i) (x :: l) = slot i l.
Proof. reflexivity. Qed.
Lemma sumo_upd A (f : A -> nat) : forall i l a, slot i l = Some a -> forall y, sumo f (upd i y l) + f a = sumo f l + match y with Some b => f b | None => 0 end.
Proof.
  induction i as [|i IH]; intros [|z l] a E y; try discriminate E.
  - cbn in E. subst z. cbn [upd sumo]. destruct y; lia.
  - rewrite slot_cons in E. cbn [upd sumo]. specialize (IH _ _ E y). destruct z; lia.
Qed.
Lemma slot_upd A : forall i j l (y : option A), i <> j -> slot i (upd j y l) = slot i l.
Proof.
  induction i as [|i IH]; intros [|j] [|z l] y N; cbn [upd]; try reflexivity; [congruence|]. rewrite !slot_cons. apply IH. congruence.
Qed.
Definition all_slots {A} (P : A -> Prop) (l : list (option A)) : Prop := Forall (fun o => match o with Some a => P a | None => True end) l.
Lemma all_slot A (P : A -> Prop) l i a : all_slots P l -> slot i l = Some a -> P a.
Proof.
  intros F E. unfold slot in E. destruct (nth_in_or_default i l None) as [H|H]; [|congruence]. rewrite E in H. unfold all_slots in F. rewrite Forall_forall in F. exact (F _ H).
Qed.
Lemma all_upd A (P : A -> Prop) : forall l i (y : option A), all_slots P l -> match y with Some a => P a | None => True end -> all_slots P (upd i y l).
Proof.
  induction l as [|z l IH]; intros [|i] y F Y; cbn [upd]; auto; inversion F as [|? ? H1 H2]; subst; constructor; auto. apply IH; auto.
Qed.
Lemma all_app A (P : A -> Prop) l m : all_slots P l -> all_slots P m -> all_slots P (l ++ m).
Proof. intros. apply Forall_app. auto. Qed.
Lemma all_Some A (P : A -> Prop) l : Forall P l -> all_slots P (map Some l).
Proof. induction 1; constructor; auto. Qed.
Lemma wtl_Forall l t : wtl l t -> Forall (fun v => wt v t) l.
Proof. induction 1; auto. Qed.

(** ** The invariant: objects and statements are in order and own different live blocks; [lost] is what nobody owns. *)
Record pool_ok (p : pool) (lost : N -> nat) : Prop := {
  po_objs : all_slots sound_result (p_objs p);
  po_stmts : all_slots (fun s => wt s TFinal) (p_stmts p);
  po_heap : heap (p_env p) (fun x => held p x + lost x) }.
Lemma nothing_ok : pool_ok nothing (fun _ => 0).
Proof. constructor; [constructor..|]. eapply heap_ext; [apply heap_fresh|]. reflexivity. Qed.

Lemma no_overflow sql ts u : no_huge sql -> tokens sql ts -> ~ interval_overflow ts u.
Proof.
  intros NH T (_ & t & s & I & ST & V & B). apply (NH ts t s T I); [|exact V|now apply scan_SUB].
  destruct (lex_all_codes T) as (ts' & tn & -> & TN & _ & F). unfold sym_of in ST.
  assert (A : forallb (fun z => (z =? TOK_STRING)%Z || negb (N.eqb (sym_of_code z) S_STRING)) (TableCheck.zrange 1000 0) = true) by (vm_compute; reflexivity).
  rewrite forallb_forall in A. assert (R : (0 <= t_code t < 1000)%Z).
  { apply in_app_iff in I as [I|[<-|[]]]; [rewrite Forall_forall in F; specialize (F _ I); lia|lia]. }
  assert (IZ : In (t_code t) (TableCheck.zrange 1000 0)) by (apply TableCheck.zrange_In; lia). specialize (A _ IZ). rewrite ST, N.eqb_refl in A. cbn [negb] in A. rewrite orb_false_r in A. lia.
Qed.

(** Derivations without '[' and INDEX do not leak. *)
Definition has_none (l : list N) (ks : list token) : Prop := forall t, In t ks -> ~ In (sym_of t) l.
Lemma has_none_app l a b : has_none l (a ++ b) -> has_none l a /\ has_none l b.
Proof. intro H. split; intros t I; apply H, in_app_iff; auto. Qed.
Lemma derives_list_nth Xs ts : derives_list Xs ts -> forall n X, nth_error Xs n = Some X -> exists t, nth_error ts n = Some t /\ derives X t.
Proof. induction 1 as [|Y Ys u us D1 D2 IH]; intros [|n] X E; try discriminate E; cbn [nth_error] in *; [injection E as <-; eauto|auto]. Qed.
Lemma has_none_nth l us n t : has_none l (flat_map yield us) -> nth_error us n = Some t -> has_none l (yield t).
Proof. intros H E k I. apply H, in_flat_map. exists t. split; [eapply nth_error_In; exact E|exact I]. Qed.
Lemma prod274 : production 274 = Some (S_array_index, [S_operand; S_lbrack; S_int_literal; S_rbrack]). Proof. reflexivity. Qed.
Lemma prod58 : production 58 = Some (S_create_statement, [S_CREATE; S_INDEX; S_opt_not_exists; S_opt_index_name; S_ON; S_table_name; S_lpar; S_ident_commalist; S_rpar]). Proof. reflexivity. Qed.
Lemma term_lbrack t : derives S_lbrack t -> exists k, t = Leaf k /\ S_lbrack = sym_of k. Proof. intro D. apply (derives_term D). reflexivity. Qed.
Lemma term_INDEX t : derives S_INDEX t -> exists k, t = Leaf k /\ S_INDEX = sym_of k. Proof. intro D. apply (derives_term D). reflexivity. Qed.
Lemma quiet_leak_free X t : derives X t -> has_none [S_lbrack; S_INDEX] (yield t) -> leak_free t = true.
Proof.
  intro D. revert X t D. apply (derives_mind (fun X t _ => has_none [S_lbrack; S_INDEX] (yield t) -> leak_free t = true)
    (fun Xs ts _ => has_none [S_lbrack; S_INDEX] (flat_map yield ts) -> forallb leak_free ts = true)).
  - reflexivity.
  - intros r lhs rhs ts P DL IH H. cbn [yield] in H. cbn [leak_free]. rewrite (IH H), andb_true_r.
    destruct (N.eqb r 274) eqn:E1.
    { apply N.eqb_eq in E1. subst r. rewrite prod274 in P. injection P as <- <-. destruct (derives_list_nth _ _ DL 1 S_lbrack eq_refl) as (t & E & D).
      destruct (term_lbrack _ D) as (k & -> & K). exfalso. apply (has_none_nth _ _ _ _ H E k); [now left|left; exact K]. }
    destruct (N.eqb r 58) eqn:E2; [|reflexivity].
    apply N.eqb_eq in E2. subst r. rewrite prod58 in P. injection P as <- <-. destruct (derives_list_nth _ _ DL 1 S_INDEX eq_refl) as (t & E & D).
    destruct (term_INDEX _ D) as (k & -> & K). exfalso. apply (has_none_nth _ _ _ _ H E k); [now left|right; left; exact K].
  - reflexivity.
  - intros Y Ys u us D1 A D2 B H. cbn [flat_map forallb] in *. apply has_none_app in H as [H1 H2]. now rewrite A, B.
Qed.
Lemma clean_of ts : has_none [S_lbrack; S_INDEX] ts -> has_none [S_WITH; S_FOR; S_UPDATE; S_CREATE] ts -> InvStep.clean ts = true.
Proof.
  intros A B. unfold InvStep.clean. apply forallb_forall. intros t I. apply negb_true_iff. unfold is_noisy. destruct (existsb (N.eqb (sym_of t)) noisy) eqn:E; [exfalso|reflexivity].
  apply existsb_exists in E as (y & J & E). apply N.eqb_eq in E. specialize (A t I). specialize (B t I). rewrite E in *. unfold noisy in J. cbn [In] in *. tauto.
Qed.

(** ** One call *)
Lemma verdict_same p lost i r buf0 sql c e : pool_ok p lost -> slot i (p_objs p) = Some r -> ready r -> parse_into buf0 sql r (p_env p) = PRet c e -> forall buf1 c' e', parse buf1 sql fresh_env = PRet c' e' -> e_valid e = e_valid e' /\
  (e_valid e = true -> map erase (e_stmts e) = map erase (r_stmts r) ++ map erase (e_stmts e') /\ List.length (e_params e) = List.length (e_params e')).
Proof.
  intros O SL [M P] E buf1 c' e' E'. destruct (tokens_total sql) as (ts & T & EE & _). unfold parse_into in E.
  assert (HB : exists B, heap (p_env p) (fun x => cas x (r_stmts r) + B x)).
  { exists (fun x => sumo (fun r => owned r x) (upd i None (p_objs p)) + sumo (ca x) (p_stmts p) + lost x). eapply heap_ext; [exact (po_heap _ _ O)|]. intro x. unfold held.
    pose proof (sumo_upd _ (fun r => owned r x) _ _ _ SL None) as Q. unfold owned in Q at 2. rewrite M in Q. cbn [ca] in Q. lia. }
  destruct HB as (B & HB).
  assert (H0 : heap (with_result r (p_env p)) (fun x => cas x (e_stmts (with_result r (p_env p))) + B x)) by (apply with_result_heap; exact HB).
  pose proof (@parse_valid buf0 sql ts (with_result r (p_env p)) _ T M P H0 c e E) as V. pose proof (parse_valid (B := fun _ => 0) (e0 := fresh_env) T eq_refl eq_refl heap_fresh E') as V'.
  assert (VV : e_valid e = e_valid e'). { destruct (e_valid e), (e_valid e'); try reflexivity; [symmetry; apply V', V|apply V, V']; reflexivity. }
  split; [exact VV|]. intro VE. assert (VE' : e_valid e' = true) by congruence. apply V in VE. destruct VE as (l & n & MM).
  pose proof (proj2 (@parse_means buf0 sql ts (with_result r (p_env p)) _ T M P H0 l n) MM) as (e2 & l2 & A1 & _ & A2 & A3 & A4). rewrite E in A1. injection A1 as _ <-.
  pose proof (proj2 (parse_means (B := fun _ => 0) buf1 (e0 := fresh_env) T eq_refl eq_refl heap_fresh l n) MM) as (e3 & l3 & B1 & _ & B2 & B3 & B4). rewrite E' in B1. injection B1 as _ <-.
  cbn [with_result e_stmts fresh_env app] in A2, B2. rewrite A2, map_app, A3, B2, B3. split; [reflexivity|congruence].
Qed.

Lemma put_back x i r r' os : slot i os = Some r -> sumo (fun r => owned r x) (upd i (Some r') os) = owned r' x + sumo (fun r => owned r x) (upd i None os).
Proof.
  intro SL. pose proof (sumo_upd _ (fun r => owned r x) _ _ _ SL None) as Q1. pose proof (sumo_upd _ (fun r => owned r x) _ _ _ SL (Some r')) as Q2. cbn beta iota in Q1, Q2. lia.
Qed.
Lemma prod2 : production 2 = Some (S_input, [S_statement_list; S_opt_semicolon]). Proof. reflexivity. Qed.
Lemma input_list tl semi : derives S_input (Node 2 [tl; semi]) -> derives S_statement_list tl.
Proof. intro D. inversion D as [|? ? ? ? P DL]. subst. rewrite prod2 in P. injection P as <-. inversion DL. assumption. Qed.

Definition next_ok (c : call) (p : pool) (lost : N -> nat) (p' : pool) : Prop := exists lost', pool_ok p' lost' /\ (tidy c p -> forall x, lost' x = lost x).
Lemma call_parse os ss e lost i buf0 sql : pool_ok (mkPool os ss e) lost -> allowed (Parse i buf0 sql) (mkPool os ss e) ->
  exists p', exec (Parse i buf0 sql) (mkPool os ss e) = Done p' /\ next_ok (Parse i buf0 sql) (mkPool os ss e) lost p'.
Proof.
  intros O [NM [RD NH]]. pose proof O as [PO PS PH]. unfold allowed, exec in NM. cbn [p_objs p_stmts p_env] in *. destruct (slot i os) as [r|] eqn:SL; [|congruence].
  specialize (RD r eq_refl). pose proof RD as [M P]. destruct (tokens_total sql) as (ts & T & EE & _).
  set (B := fun x => sumo (fun r => owned r x) (upd i None os) + sumo (ca x) ss + lost x).
  assert (HB : heap e (fun x => cas x (r_stmts r) + B x)).
  { eapply heap_ext; [exact PH|]. intro x. unfold B, held. cbn [p_objs p_stmts]. pose proof (sumo_upd _ (fun r => owned r x) _ _ _ SL None) as Q. unfold owned in Q at 2. rewrite M in Q. cbn [ca] in Q. lia. }
  assert (H0 : heap (with_result r e) (fun x => cas x (e_stmts (with_result r e)) + B x)) by (apply with_result_heap; exact HB).
  pose proof (parse_inv buf0 T (e0 := with_result r e) M P H0) as OC. pose proof (all_slot _ _ _ _ _ PO SL) as [W _].
  unfold exec. rewrite SL. unfold parse_into. destruct (parse buf0 sql (with_result r e)) as [q e'|u|] eqn:E; cbn [parse_outcome] in OC; [|exfalso; exact (no_overflow _ _ _ NH T OC)|destruct OC].
  eexists. split; [reflexivity|].
  assert (VS : forall c' e2, parse [] sql fresh_env = PRet c' e2 -> e_valid e' = e_valid e2).
  { intros c' e2 E2. exact (proj1 (verdict_same _ _ i r buf0 sql q e' O SL RD E [] c' e2 E2)). }
  assert (FR : exists c' e2, parse [] sql fresh_env = PRet c' e2).
  { pose proof (parse_fresh [] T) as F. destruct (parse [] sql fresh_env) as [c' e2|u|]; [eauto|exfalso; exact (no_overflow _ _ _ NH T F)|destruct F]. }
  destruct FR as (c' & e2 & F2). specialize (VS _ _ F2).
  destruct OC as [(_ & V & e1 & -> & (tl & semi & k & l2 & D & Y & K & EQ & [RS RP] & H1 & L))|(_ & V & e1 & -> & ((_ & MM & _) & ST & l2 & H1 & L))].
  - destruct RS as (l & ES & WL & _). destruct EQ as (_ & EM & _). cbn [with_result e_msg e_stmts] in EM, ES. rewrite M in EM.
    exists (fun x => l2 x + lost x). split.
    + constructor; cbn [p_objs p_stmts p_env].
      * apply all_upd; [exact PO|]. unfold sound_result, the_result. cbn [r_stmts r_msg set_valid e_stmts e_msg]. split; [rewrite ES; now apply wtl_app|now left].
      * exact PS.
      * apply (@heap_env e1); [reflexivity|reflexivity|]. eapply heap_ext; [exact H1|]. intro x. unfold held, B. cbn [p_objs p_stmts].
        rewrite (put_back x i r (the_result (set_valid true e1)) os SL). change (owned (the_result (set_valid true e1)) x) with (cas x (e_stmts e1) + ca x (e_msg e1)). rewrite EM. cbn [ca]. lia.
    + intros [TD _] x. rewrite (lost_blocks_zero L); [reflexivity|]. apply leak_free_count, (quiet_leak_free S_statement_list); [exact (input_list _ _ D)|]. intros t I. apply (TD ts t T). rewrite <- Y. apply in_app_iff. now left.
  - exists (fun x => l2 x + lost x). split.
    + constructor; cbn [p_objs p_stmts p_env].
      * apply all_upd; [exact PO|]. unfold sound_result, the_result. cbn [r_stmts r_msg set_valid e_stmts e_msg]. split; [|now right].
        destruct ST as [[-> _]|(tl & semi & rest & _ & _ & [RS _])]; [exact W|]. destruct RS as (l & ES & WL & _). cbn [with_result e_stmts] in ES. rewrite ES. now apply wtl_app.
      * exact PS.
      * apply (@heap_env e1); [reflexivity|reflexivity|]. eapply heap_ext; [exact H1|]. intro x. unfold held, B. cbn [p_objs p_stmts].
        rewrite (put_back x i r (the_result (set_valid false e1)) os SL). change (owned (the_result (set_valid false e1)) x) with (cas x (e_stmts e1) + ca x (e_msg e1)). lia.
    + intros [TD TI] x. cbn [set_valid e_valid] in VS. rewrite L; [reflexivity|]. apply clean_of; intros t I; [apply (TD ts t T I)|apply (TI [] c' e2 F2 (eq_sym VS) ts t T I)].
Qed.
Lemma del_final s : wt s TFinal -> frees (del s) (fun x => ca x s).
Proof.
  intro W. assert (WL : wtl [s] TFinal) by (constructor; [exact W|constructor]). intros e f H.
  destruct (del_all_frees WL final_del (e := e) (f := f)) as (e' & E & H' & S). { eapply heap_ext; [exact H|]. intro x. cbn [cas]. lia. }
  exists e'. split; [|auto]. cbn [del_all] in E. unfold bind, ret in E. destruct (del s e) as [[] e1| |]; congruence.
Qed.
Lemma upd_id A i (l : list (option A)) a : slot i l = Some a -> upd i (Some a) l = l.
Proof. revert i. induction l as [|z l IH]; intros [|i] E; try discriminate E; cbn [upd]; [cbn in E; congruence|]. f_equal. apply IH. exact E. Qed.

Lemma sound_ctor : sound_result ctor. Proof. split; [constructor|now left]. Qed.
Lemma next_same c p lost p' : pool_ok p' lost -> next_ok c p lost p'.
Proof. intro O. exists lost. auto. Qed.
(** The sum after replacing an object or a statement. *)
Lemma upd_obj x i r r' os : slot i os = Some r -> sumo (fun r => owned r x) (upd i (Some r') os) + owned r x = sumo (fun r => owned r x) os + owned r' x.
Proof. intro SL. exact (sumo_upd _ (fun r => owned r x) _ _ _ SL (Some r')). Qed.
Lemma upd_obj0 x i r os : slot i os = Some r -> sumo (fun r => owned r x) (upd i None os) + owned r x = sumo (fun r => owned r x) os.
Proof. intro SL. pose proof (sumo_upd _ (fun r => owned r x) _ _ _ SL None) as Q. cbn beta iota in Q. lia. Qed.
Lemma upd_stmt0 x n s ss : slot n ss = Some s -> sumo (ca x) (upd n None ss) + ca x s = sumo (ca x) ss.
Proof. intro SL. pose proof (sumo_upd _ (ca x) _ _ _ SL None) as Q. cbn beta iota in Q. lia. Qed.

Lemma call_ok c p lost : pool_ok p lost -> allowed c p -> exists p', exec c p = Done p' /\ next_ok c p lost p'.
Proof.
  intros O AL. destruct p as [os ss e]. destruct c as [|n|j|i j|i buf0 sql|i|i|i n|i b|i m l c|i|n]; try (apply call_parse; assumption); pose proof O as [PO PS PH]; destruct AL as [NM _]; unfold exec in NM; cbn [p_objs p_stmts p_env] in *; unfold exec.
  - (* New *) eexists. split; [reflexivity|]. apply next_same. constructor; cbn [p_objs p_stmts p_env]; [apply all_app; [exact PO|constructor; [exact sound_ctor|constructor]]|exact PS|].
    eapply heap_ext; [exact PH|]. intro x. unfold held. cbn [p_objs p_stmts]. rewrite sumo_app. cbn. lia.
  - (* NewWith *) destruct (slot n ss) as [s|] eqn:SN; [|congruence]. eexists. split; [reflexivity|]. apply next_same. pose proof (all_slot _ _ _ _ _ PS SN) as W. cbn beta in W.
    constructor; cbn [p_objs p_stmts p_env]; [apply all_app; [exact PO|constructor; [split; [constructor; [exact W|constructor]|now left]|constructor]]|apply all_upd; [exact PS|exact I]|].
    eapply heap_ext; [exact PH|]. intro x. unfold held. cbn [p_objs p_stmts]. rewrite sumo_app. cbn [sumo]. change (owned (ctor_stmt s) x) with (ca x s + 0 + 0). pose proof (upd_stmt0 x n s ss SN). lia.
  - (* NewMove *) destruct (slot j os) as [r|] eqn:SJ; [|congruence]. destruct (C26_move_constructor r e) as (new & old & E & _ & A2 & A3 & (_ & C2 & C3 & _) & A4). rewrite E. cbn [done]. eexists. split; [reflexivity|]. apply next_same.
    pose proof (all_slot _ _ _ _ _ PO SJ) as [W1 W2]. assert (CO : r_stmts old = []) by (now apply length_zero_iff_nil). constructor; cbn [p_objs p_stmts p_env].
    + apply all_app; [apply all_upd; [exact PO|split; [rewrite CO; constructor|now left]]|constructor; [split; [now rewrite A3|now rewrite A2]|constructor]].
    + exact PS.
    + eapply heap_ext; [exact PH|]. intro x. unfold held. cbn [p_objs p_stmts]. rewrite sumo_app. cbn [sumo]. rewrite A4. pose proof (upd_obj x j r old os SJ) as Q. unfold owned in Q at 4. rewrite CO, C3 in Q. cbn [cas ca] in Q. lia.
  - (* Assign *) destruct (i =? j) eqn:EIJ; [congruence|]. destruct (slot i os) as [d|] eqn:SI; [|congruence]. destruct (slot j os) as [r|] eqn:SJ; [|congruence].
    destruct (C26_move_partial d r e) as (d' & r' & E & _ & A2 & A3 & (_ & C2 & C3 & _) & A4 & A5 & _). rewrite E. cbn [done]. eexists. split; [reflexivity|]. exists (fun x => lost x + owned d x).
    pose proof (all_slot _ _ _ _ _ PO SJ) as [W1 W2]. assert (CO : r_stmts r' = []) by (now apply length_zero_iff_nil). split; [constructor; cbn [p_objs p_stmts p_env]|].
    + apply all_upd; [apply all_upd; [exact PO|split; [rewrite CO; constructor|now left]]|split; [now rewrite A3|now rewrite A2]].
    + exact PS.
    + eapply heap_ext; [exact PH|]. intro x. unfold held. cbn [p_objs p_stmts]. assert (SI' : slot i (upd j (Some r') os) = Some d) by (rewrite slot_upd; [exact SI|lia]).
      pose proof (upd_obj x i d d' _ SI'). pose proof (upd_obj x j r r' os SJ). specialize (A4 x). specialize (A5 x). lia.
    + intros TD x. cbn [tidy p_objs] in TD. destruct (TD d SI) as [D1 D2]. unfold owned. rewrite D1, D2. cbn [cas ca]. lia.
  - (* Reset *) destruct (slot i os) as [r|] eqn:SL; [|congruence]. pose proof (all_slot _ _ _ _ _ PO SL) as SR.
    assert (H0 : heap e (fun x => owned r x + (sumo (fun r => owned r x) (upd i None os) + sumo (ca x) ss + lost x))).
    { eapply heap_ext; [exact PH|]. intro x. unfold held. cbn [p_objs p_stmts]. pose proof (upd_obj0 x i r os SL). lia. }
    destruct (reset_ok SR H0) as (e' & E & H' & _). rewrite E. cbn [done]. eexists. split; [reflexivity|]. apply next_same. constructor; cbn [p_objs p_stmts p_env]; [apply all_upd; [exact PO|split; [constructor|now left]]|exact PS|].
    eapply heap_ext; [exact H'|]. intro x. unfold held. cbn [p_objs p_stmts]. rewrite (put_back x i r _ os SL). cbn. lia.
  - (* Release *) destruct (slot i os) as [r|] eqn:SL; [|congruence]. cbn [releaseStatements]. eexists. split; [reflexivity|]. apply next_same. pose proof (all_slot _ _ _ _ _ PO SL) as [W1 W2]. constructor; cbn [p_objs p_stmts p_env].
    + apply all_upd; [exact PO|split; [constructor|exact W2]].
    + apply all_app; [exact PS|]. apply all_Some, wtl_Forall. exact W1.
    + eapply heap_ext; [exact PH|]. intro x. unfold held. cbn [p_objs p_stmts]. rewrite sumo_app, sumo_Some, cas_fold. match goal with |- context [upd i (Some ?r') os] => pose proof (upd_obj x i r r' os SL) as Q end. unfold owned in Q at 2 4. cbn [r_stmts r_msg cas] in Q. lia.
  - (* Add *) destruct (slot i os) as [r|] eqn:SL; [|congruence]. destruct (slot n ss) as [s|] eqn:SN; [|congruence]. eexists. split; [reflexivity|]. apply next_same. pose proof (all_slot _ _ _ _ _ PO SL) as [W1 W2]. pose proof (all_slot _ _ _ _ _ PS SN) as W. cbn beta in W. constructor; cbn [p_objs p_stmts p_env].
    + apply all_upd; [exact PO|split; [|exact W2]]. cbn [addStatement r_stmts]. apply wtl_app; [exact W1|constructor; [exact W|constructor]].
    + apply all_upd; [exact PS|exact I].
    + eapply heap_ext; [exact PH|]. intro x. unfold held. cbn [p_objs p_stmts]. pose proof (upd_obj x i r (addStatement s r) os SL) as Q. unfold owned in Q at 2 4. cbn [addStatement r_stmts r_msg] in Q. rewrite cas_app in Q. cbn [cas] in Q. pose proof (upd_stmt0 x n s ss SN). lia.
  - (* SetValid *) destruct (slot i os) as [r|] eqn:SL; [|congruence]. eexists. split; [reflexivity|]. apply next_same. pose proof (all_slot _ _ _ _ _ PO SL) as SR. constructor; cbn [p_objs p_stmts p_env]; [apply all_upd; [exact PO|exact SR]|exact PS|].
    eapply heap_ext; [exact PH|]. intro x. unfold held. cbn [p_objs p_stmts]. pose proof (upd_obj x i r (setIsValid b r) os SL) as Q. unfold owned in Q at 2 4. cbn [setIsValid r_stmts r_msg] in Q. lia.
  - (* SetError *) destruct (slot i os) as [r|] eqn:SL; [|congruence]. destruct (alloc_spec PH) as (_ & e' & E & H' & _). unfold snew, bind, ret in *. rewrite E in *. cbn [done]. eexists. split; [reflexivity|]. exists (fun x => lost x + ca x (r_msg r)). pose proof (all_slot _ _ _ _ _ PO SL) as [W1 W2]. split; [constructor; cbn [p_objs p_stmts p_env]|].
    + apply all_upd; [exact PO|split; [exact W1|right; eexists _, _; reflexivity]].
    + exact PS.
    + eapply heap_ext; [exact H'|]. intro x. unfold held. cbn [p_objs p_stmts]. match goal with |- context [upd i (Some ?r') os] => pose proof (upd_obj x i r r' os SL) as Q end. unfold owned in Q at 2 4. cbn [setErrorDetails r_stmts r_msg ca] in Q. lia.
    + intros TD x. cbn [tidy p_objs] in TD. rewrite (TD r SL). cbn [ca]. lia.
  - (* Destroy *) destruct (slot i os) as [r|] eqn:SL; [|congruence]. pose proof (all_slot _ _ _ _ _ PO SL) as SR.
    assert (H0 : heap e (fun x => owned r x + (sumo (fun r => owned r x) (upd i None os) + sumo (ca x) ss + lost x))).
    { eapply heap_ext; [exact PH|]. intro x. unfold held. cbn [p_objs p_stmts]. pose proof (upd_obj0 x i r os SL). lia. }
    destruct (reset_ok SR H0) as (e' & E & H' & _). unfold destroy, bind, ret in *. rewrite E in *. cbn [done]. eexists. split; [reflexivity|]. apply next_same. constructor; cbn [p_objs p_stmts p_env]; [apply all_upd; [exact PO|exact I]|exact PS|].
    eapply heap_ext; [exact H'|]. intro x. unfold held. cbn [p_objs p_stmts]. lia.
  - (* Delete *) destruct (slot n ss) as [s|] eqn:SN; [|congruence]. pose proof (all_slot _ _ _ _ _ PS SN) as W. cbn beta in W.
    destruct (del_final s W e (fun x => sumo (fun r => owned r x) os + sumo (ca x) (upd n None ss) + lost x)) as (e' & E & H' & _).
    { eapply heap_ext; [exact PH|]. intro x. unfold held. cbn [p_objs p_stmts]. pose proof (upd_stmt0 x n s ss SN). lia. }
    rewrite E in *. cbn [done]. eexists. split; [reflexivity|]. apply next_same. constructor; cbn [p_objs p_stmts p_env]; [exact PO|apply all_upd; [exact PS|exact I]|].
    eapply heap_ext; [exact H'|]. intro x. unfold held. cbn [p_objs p_stmts]. lia.
Qed.
Lemma history_ok cs p : history cs p -> exists lost, pool_ok p lost.
Proof.
  induction 1 as [|cs p c p' H (lost & O) A E]; [exists (fun _ => 0); exact nothing_ok|]. destruct (call_ok c p lost O A) as (p2 & E2 & lost' & O' & _). rewrite E in E2. injection E2 as <-. eauto.
Qed.
Lemma tidy_ok cs p : tidy_history cs p -> pool_ok p (fun _ => 0).
Proof.
  induction 1 as [|cs p c p' H O A T E]; [exact nothing_ok|]. destruct (call_ok c p _ O A) as (p2 & E2 & lost' & [O1 O2 O3] & L). rewrite E in E2. injection E2 as <-.
  constructor; [exact O1|exact O2|]. eapply heap_ext; [exact O3|]. intro x. cbn beta. now rewrite (L T x).
Qed.

(** ** C45 *)
(** Whatever the program did so far, every further call within the contract is defined, and it leaves every block reachable from an object or a statement of
    the program allocated, and reachable in one way only (so no later call can free it twice). *)
Theorem C45_every_history_is_safe : forall cs p, history cs p ->
  (forall x, 1 <= held p x -> In x (e_live (p_env p)) /\ held p x = 1) /\
  forall c, allowed c p -> exists p', exec c p = Done p' /\ history (cs ++ [c]) p'.
Proof.
  intros cs p H. destruct (history_ok cs p H) as (lost & O). split.
  - intros x X. pose proof (po_heap _ _ O) as PH. pose proof (heap_one PH x) as H1. cbn beta in H1. split; [|lia]. apply memN_In. eapply heap_mem; [exact PH|]. cbn beta. lia.
  - intros c A. destruct (call_ok c p lost O A) as (p' & E & _). exists p'. split; [exact E|]. econstructor; eassumption.
Qed.
(** Parsing into an object gives the verdict and the new statements of a parse by a program that does nothing else, whatever happened before, to this object and to others. *)
Theorem C45_histories_do_not_matter : forall cs p i r buf0 sql p' buf1 c e, history cs p -> slot i (p_objs p) = Some r -> allowed (Parse i buf0 sql) p -> exec (Parse i buf0 sql) p = Done p' -> parse buf1 sql fresh_env = PRet c e ->
  exists r', slot i (p_objs p') = Some r' /\ r_valid r' = e_valid e /\
    (r_valid r' = true -> map erase (r_stmts r') = map erase (r_stmts r) ++ map erase (e_stmts e) /\ List.length (r_params r') = List.length (e_params e)) /\
    (forall k, k <> i -> slot k (p_objs p') = slot k (p_objs p)) /\ p_stmts p' = p_stmts p.
Proof.
  intros cs p i r buf0 sql p' buf1 c e H SL [_ [RD _]] E E'. destruct (history_ok cs p H) as (lost & O). specialize (RD r SL). destruct p as [os ss e0]. unfold exec in E. cbn [p_objs p_stmts p_env] in *. rewrite SL in E.
  destruct (parse_into buf0 sql r e0) as [q e1|u|] eqn:EP; try discriminate E. injection E as <-. cbn [p_objs p_stmts].
  destruct (verdict_same _ lost i r buf0 sql q e1 O SL RD EP buf1 c e E') as [V W]. exists (the_result e1). split; [|split; [exact V|split; [exact W|split; [|reflexivity]]]].
  - clear - SL. revert os SL. induction i as [|i IH]; intros [|z os] SL; try discriminate SL; cbn [upd]; [reflexivity|]. rewrite slot_cons in *. auto.
  - intros k K. apply slot_upd. exact K.
Qed.
Lemma numbers_In ps : forall id a z, In (a, z) (numbers ps id) -> (id <= z)%Z /\ nth_error ps (Z.to_nat (z - id)) = Some a.
Proof.
  induction ps as [|b ps IH]; intros id a z I; [destruct I|]. destruct I as [I|I].
  - injection I as -> ->. rewrite Z.sub_diag. split; [lia|reflexivity].
  - apply IH in I as [L E]. split; [lia|]. replace (Z.to_nat (z - id)) with (S (Z.to_nat (z - (id + 1)))) by lia. exact E.
Qed.
Lemma cps_le_cas q l : cps q l <= cas (fst q) l.
Proof. induction l as [|v l IH]; cbn [cps cas]; [lia|]. pose proof (cp_le_ca q v). lia. Qed.
Lemma params_inside e0 tl e : e_params e0 = [] -> result_of e0 tl e -> forall a z, In (a, z) (e_params e) -> 1 <= cas a (e_stmts e).
Proof.
  intros P0 [(l & ES & _ & _ & _ & CP) RP] a z I. rewrite RP, P0 in I. cbn [app] in I. apply numbers_In in I as [L E]. rewrite Z.sub_0_r in E.
  specialize (CP (a, z)). unfold listed_in in CP. cbn [fst snd] in CP. rewrite E, ind_refl in CP. assert (Z0 : (0 <=? z)%Z = true) by lia. rewrite Z0 in CP. pose proof (cps_le_cas (a, z) l) as Q. cbn [fst] in Q.
  rewrite ES, cas_app. lia.
Qed.
(** What parameters() refers to after a parse lies inside the statements of the object, so (first theorem) it is allocated as long as these statements exist, be it in
    this object, in another one or with the program. *)
Theorem C45_parameters : forall cs p i buf0 sql p' r', history cs p -> allowed (Parse i buf0 sql) p -> exec (Parse i buf0 sql) p = Done p' -> slot i (p_objs p') = Some r' ->
  forall a z, In (a, z) (r_params r') -> 1 <= cas a (r_stmts r') /\ 1 <= held p' a.
Proof.
  intros cs p i buf0 sql p' r' H A E S' a z I. destruct (history_ok cs p H) as (lost & O). destruct p as [os ss e]. pose proof A as [NM [RD NH]]. unfold exec in E. cbn [p_objs p_stmts p_env] in *.
  destruct (slot i os) as [r|] eqn:SL; [|discriminate E]. specialize (RD r eq_refl). destruct RD as [M P]. destruct (tokens_total sql) as (ts & T & EE & _).
  set (B := fun x => sumo (fun r => owned r x) (upd i None os) + sumo (ca x) ss + lost x).
  assert (HB : heap e (fun x => cas x (r_stmts r) + B x)).
  { eapply heap_ext; [exact (po_heap _ _ O)|]. intro x. unfold B, held. cbn [p_objs p_stmts]. pose proof (upd_obj0 x i r os SL) as Q. unfold owned in Q at 2. rewrite M in Q. cbn [ca] in Q. lia. }
  assert (H0 : heap (with_result r e) (fun x => cas x (e_stmts (with_result r e)) + B x)) by (apply with_result_heap; exact HB).
  pose proof (parse_inv buf0 T (e0 := with_result r e) M P H0) as OC. unfold parse_into in E. destruct (parse buf0 sql (with_result r e)) as [q e'|u|]; cbn [parse_outcome] in OC; [|discriminate E..]. injection E as <-. cbn [p_objs p_stmts] in *.
  assert (S2 : slot i (upd i (Some (the_result e')) os) = Some (the_result e')).
  { clear - SL. revert os SL. induction i as [|i IH]; intros [|z os] SL; try discriminate SL; cbn [upd]; [reflexivity|]. rewrite slot_cons in *. auto. }
  rewrite S2 in S'. injection S' as <-. cbn [the_result r_params r_stmts] in *.
  assert (C : 1 <= cas a (e_stmts e')).
  { destruct OC as [(_ & _ & e1 & -> & (tl & semi & k & l2 & _ & _ & _ & _ & RS & _))|(_ & _ & e1 & -> & (_ & [[_ EP]|(tl & semi & rest & _ & _ & RS)] & _))]; cbn [set_valid e_params e_stmts] in *.
    - exact (params_inside (with_result r e) tl e1 P RS a z I).
    - rewrite EP in I. cbn [with_result e_params] in I. rewrite P in I. destruct I.
    - exact (params_inside (with_result r e) tl e1 P RS a z I). }
  split; [exact C|]. unfold held. cbn [p_objs]. rewrite (put_back a i r (the_result e') os SL). unfold owned at 1. cbn [the_result r_stmts]. lia.
Qed.
(** A program that overwrites nothing and parses only inputs that do not leak (C23) frees everything it ever allocated by destroying its objects and
    deleting its statements. *)
Theorem C45_no_leak : forall cs p, tidy_history cs p ->
  (forall x, cntN x (e_live (p_env p)) = held p x) /\
  ((forall i, slot i (p_objs p) = None) -> (forall n, slot n (p_stmts p) = None) -> e_live (p_env p) = []).
Proof.
  intros cs p H. pose proof (tidy_ok cs p H) as O. pose proof (po_heap _ _ O) as PH. split; [intro x; rewrite (heap_live PH x); lia|]. intros N1 N2.
  assert (Z : forall A (f : A -> nat) l, (forall i, slot i l = None) -> sumo f l = 0).
  { intros A f l. induction l as [|[a|] l IH]; intro N; cbn [sumo]; [reflexivity|specialize (N 0); discriminate N|]. apply IH. intro i. exact (N (S i)). }
  apply heap_empty. eapply heap_ext; [exact PH|]. intro x. unfold held. now rewrite !Z.
Qed.

(** ** A program: two objects, a parse with a parameter, a failing parse, statements released, given to another object and deleted, moves, destruction of everything. *)
Definition hsql1 : bytes := la "SELECT a, 'x' FROM t WHERE b = ?; DELETE FROM t".
Definition hsql2 : bytes := la "INSERT INTO VALUES (1, 'y')".
Definition hsql3 : bytes := la "DROP TABLE t".
Definition program : list call :=
  [New; New; Parse 0 [] hsql1; Parse 1 [] hsql2; Release 0; Reset 1; NewWith 1; Add 1 0; Assign 0 1; Parse 1 [] hsql3; NewMove 0; SetError 1 (la "mine") 3 4; SetValid 1 true; Release 2; Delete 2; Destroy 0; Destroy 1; Destroy 2; Destroy 3].
(** Deciding the conditions (for this example). *)
Definition short (sql : bytes) : bool := match lex_all [] sql with Some ts => forallb (fun t => match t_val t with TVStr s => List.length s <=? 9 | _ => true end) ts | None => false end.
Definition withoutb (l : list N) (sql : bytes) : bool := match lex_all [] sql with Some ts => forallb (fun t => negb (existsb (N.eqb (sym_of t)) l)) ts | None => false end.
Definition is_nil {A} (l : list A) : bool := match l with [] => true | _ => false end.
Definition nullb (v : val) : bool := match v with VNull => true | _ => false end.
Definition goodb (c : call) (p : pool) : bool :=
  match c with
  | Parse i _ sql => match slot i (p_objs p) with Some r => nullb (r_msg r) && is_nil (r_params r) | None => false end && short sql && withoutb [S_lbrack; S_INDEX] sql &&
      match parse [] sql fresh_env with PRet _ e => if e_valid e then true else withoutb [S_WITH; S_FOR; S_UPDATE; S_CREATE] sql | _ => false end
  | Assign i _ => match slot i (p_objs p) with Some r => is_nil (r_stmts r) && nullb (r_msg r) | None => false end
  | SetError i _ _ _ => match slot i (p_objs p) with Some r => nullb (r_msg r) | None => false end
  | _ => true
  end.
Fixpoint play (cs : list call) (p : pool) : option pool := match cs with [] => Some p | c :: cs' => if goodb c p then match exec c p with Done p' => play cs' p' | _ => None end else None end.
Lemma short_no_huge sql : short sql = true -> no_huge sql.
Proof.
  unfold short. intros H ts t s T I _ V. unfold tokens in T. rewrite T in H. rewrite forallb_forall in H. specialize (H t I). rewrite V in H. apply Nat.leb_le in H. clear - H.
  intros (b & sg & ds & r & [(-> & _ & D & _ & V)|(b' & ds' & r' & -> & _ & D & V)]).
  - rewrite !app_length in H. pose proof (digits_bound ds 0%Z D ltac:(lia)) as K. unfold digits_val in V. assert (10 ^ Z.of_nat (List.length ds) <= 10 ^ 9)%Z by (apply Z.pow_le_mono_r; lia). lia.
  - rewrite !app_length in H. pose proof (digits_bound ds' 0%Z D ltac:(lia)) as K. unfold digits_val in V. assert (10 ^ Z.of_nat (List.length ds') <= 10 ^ 9)%Z by (apply Z.pow_le_mono_r; lia). lia.
Qed.
Lemma withoutb_ok l sql : withoutb l sql = true -> without l sql.
Proof.
  unfold withoutb. intros H ts t T I J. unfold tokens in T. rewrite T in H. rewrite forallb_forall in H. specialize (H t I). apply negb_true_iff in H.
  assert (existsb (N.eqb (sym_of t)) l = true); [|congruence]. apply existsb_exists. exists (sym_of t). split; [exact J|apply N.eqb_refl].
Qed.
Lemma is_nil_ok A (l : list A) : is_nil l = true -> l = []. Proof. now destruct l. Qed.
Lemma nullb_ok v : nullb v = true -> v = VNull. Proof. now destruct v. Qed.
Lemma goodb_ok c p p' : goodb c p = true -> exec c p = Done p' -> allowed c p /\ tidy c p.
Proof.
  intros G E. unfold allowed. rewrite E. destruct c as [|n|j|i j|i buf0 sql|i|i|i n|i b|i m l c|i|n]; cbn [goodb tidy] in *; try (repeat split; discriminate).
  - split; [split; [discriminate|exact Logic.I]|]. intros r SL. rewrite SL in G. apply andb_prop in G as [G1 G2]. split; [now apply is_nil_ok|now apply nullb_ok].
  - apply andb_prop in G as [G G4]. apply andb_prop in G as [G G3]. apply andb_prop in G as [G1 G2]. split; [split; [discriminate|split; [|now apply short_no_huge]]|split; [now apply withoutb_ok|]].
    + intros r SL. rewrite SL in G1. apply andb_prop in G1 as [H1 H2]. split; [now apply nullb_ok|now apply is_nil_ok].
    + intros buf1 q e P V. destruct (C24_independent_of_string_buffer buf1 [] sql fresh_env) as [Q _]. rewrite Q in P. rewrite P, V in G4. now apply withoutb_ok.
  - split; [split; [discriminate|exact Logic.I]|]. intros r SL. rewrite SL in G. now apply nullb_ok.
Qed.
Lemma play_ok : forall cs cs0 p p', tidy_history cs0 p -> history cs0 p -> play cs p = Some p' -> tidy_history (cs0 ++ cs) p' /\ history (cs0 ++ cs) p'.
Proof.
  induction cs as [|c cs IH]; intros cs0 p p' T H E; cbn [play] in E; [injection E as <-; now rewrite app_nil_r|]. destruct (goodb c p) eqn:G; [|discriminate E].
  destruct (exec c p) as [p1| |] eqn:EX; try discriminate E. destruct (goodb_ok c p p1 G EX) as [A1 A2]. replace (cs0 ++ c :: cs) with ((cs0 ++ [c]) ++ cs) by (rewrite <- app_assoc; reflexivity).
  apply (IH _ p1); [econstructor; eassumption|econstructor; eassumption|exact E].
Qed.
Definition after (n : nat) : option pool := play (firstn n program) nothing.
(** After 8 calls three objects with two statements are left; after all of them nothing. *)
Example C45_example :
  (exists p, after 8 = Some p /\ tidy_history (firstn 8 program) p /\ history (firstn 8 program) p /\ List.length (p_objs p) = 3 /\ 14 <= List.length (e_live (p_env p)) /\ map (option_map r_size) (p_objs p) = [Some 0; Some 1; Some 1]) /\
  (exists p, after 19 = Some p /\ tidy_history program p /\ (forall i, slot i (p_objs p) = None) /\ (forall n, slot n (p_stmts p) = None)).
Proof.
  assert (G : forall n, match after n with Some _ => true | None => false end = true -> exists p, after n = Some p /\ tidy_history (firstn n program) p /\ history (firstn n program) p).
  { intros n X. destruct (after n) as [p|] eqn:E; [|discriminate X]. exists p. split; [reflexivity|]. unfold after in E. exact (play_ok _ [] nothing p t_start h_start E). }
  split.
  - destruct (G 8) as (p & E & T & H); [vm_compute; reflexivity|]. exists p. split; [exact E|]. split; [exact T|]. split; [exact H|].
    assert (Q : match after 8 with Some p => (List.length (p_objs p), 14 <=? List.length (e_live (p_env p)), map (option_map r_size) (p_objs p)) | None => (0, false, []) end = (3, true, [Some 0; Some 1; Some 1])) by (vm_compute; reflexivity).
    rewrite E in Q. injection Q as Q1 Q2 Q3. split; [exact Q1|]. split; [apply Nat.leb_le; exact Q2|exact Q3].
  - destruct (G 19) as (p & E & T & _); [vm_compute; reflexivity|]. exists p. split; [exact E|]. split; [exact T|].
    assert (Q : match after 19 with Some p => (p_objs p, p_stmts p) | None => ([], []) end = (repeat None 4, repeat None 3)) by (vm_compute; reflexivity).
    rewrite E in Q. injection Q as -> ->. split; intro i; unfold slot; (destruct i as [|[|[|[|[|i]]]]]; reflexivity).
Qed.
