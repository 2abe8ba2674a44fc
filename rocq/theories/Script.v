(** Every written script is parsed to its object trees; no code of /repo. *)
From Verif Require Export StmtMain Write PropGrammar.
From Coq Require Import ZifyBool ZifyNat ZifyN.
Local Open Scope nat_scope.
Set Implicit Arguments.
Unset Strict Implicit.

(** The parse fails (it is invalid if it returns; for when it returns see C01 and C02). *)
Definition rejects (sql : bytes) : Prop := forall buf0 r e, parse buf0 sql fresh_env = PRet r e -> e_valid e = false.
Lemma lev_stmts : ends (lev S_statement_list) S_semi = true /\ ends (lev S_statement_list) 0 = true. Proof. split; vm_compute; reflexivity. Qed.
(** The objects denoted by a script. *)
Definition script_objs (l : list (stmt * list hint)) : list val := elems (q_obj (p_script l) 0).
Lemma script_vec l : q_obj (p_script l) 0 = VVec 0 (script_objs l). Proof. reflexivity. Qed.
Lemma legal_script l : script_legal l -> says S_statement_list (p_script l).
Proof.
  intros [NE H]. apply script_says; [exact NE|]. eapply Forall_impl; [|exact H]. intros s [A B]. split; [exact A|]. eapply Forall_impl; [|exact B]. intros c. apply legal_ok.
Qed.
Theorem script_tree l b text : script_legal l -> q_stack (p_script l) <= 198 -> spells (q_tok (p_script l) ++ semicolon b) text ->
  exists ts stmts semi eof, tokens text ts /\ parses_as ts stmts semi eof /\ sem stmts 0 = if q_ok (p_script l) 0 then Some (VVec 0 (script_objs l), q_params (p_script l)) else None.
Proof.
  intros LG ST SP. apply legal_script in LG. destruct (LG 0) as (t & A1 & B1 & C1 & D1 & _ & F1). set (t2 := if b then Node 354 [Leaf (mk (59%Z, TVNone))] else Node 355 []).
  assert (W : derives S_opt_semicolon t2 /\ map core (yield t2) = semicolon b /\ respects t2 0 = true /\ need t2 = 1).
  { unfold t2. destruct b; (split; [|repeat split]).
    - apply (@wf_derives (Node 354 [Leaf (mk (59%Z, TVNone))])). vm_compute. reflexivity.
    - apply (@wf_derives (Node 355 [])). vm_compute. reflexivity. }
  destruct W as (A2 & B2 & D2 & F2). destruct (spells_tokens SP) as (ts & T & ET).
  assert (P : parses_as (yield (Node 2 [t; t2]) ++ [mk (0%Z, TVNone)]) t t2 (mk (0%Z, TVNone))).
  { unfold parses_as. split; [econstructor; [apply production_2|]; repeat (constructor; try eassumption)|]. split; [reflexivity|]. split; [reflexivity|]. split.
    - rewrite respects_node. replace (may_end 2 0) with true by reflexivity. replace (Prec.tail_ok 2 [t; t2]) with true; [|symmetry; unfold Prec.tail_ok; cbn [rev app]; apply forallb_forall; intros; reflexivity].
      cbn [respects_all andb]. change (first_of [] 0) with 0%N. rewrite D2. rewrite !andb_true_r. apply D1. rewrite (@first_of_next [t2] 0%N (semicolon b)); [|unfold yields; cbn [flat_map]; rewrite app_nil_r; exact B2].
      destruct lev_stmts as [L1 L2]. destruct b; cbn [semicolon next_sym]; assumption.
    - rewrite need_node. cbn [need_all]. lia. }
  eapply parses_core with (ts' := ts) in P. 2:{ rewrite ET, map_app. cbn [yield flat_map]. rewrite app_nil_r, map_app, B1, B2. reflexivity. }
  destruct P as (a' & b' & k' & P & S). exists ts, a', b', k'. split; [exact T|]. split; [exact P|]. rewrite S, C1, script_vec. reflexivity.
Qed.
Theorem script_accepted l b text : script_legal l -> q_stack (p_script l) <= 198 -> spells (q_tok (p_script l) ++ semicolon b) text -> q_ok (p_script l) 0 = true -> accepted_with text (script_objs l) (q_params (p_script l)).
Proof. intros LG ST SP OK. destruct (script_tree LG ST SP) as (ts & a & c & k & T & P & S). rewrite OK in S. apply (accepted_means _ _ _ _ T). exists a, c, k. auto. Qed.
Theorem script_rejected l b text : script_legal l -> q_stack (p_script l) <= 198 -> spells (q_tok (p_script l) ++ semicolon b) text -> q_ok (p_script l) 0 = false -> rejects text.
Proof.
  intros LG ST SP OK buf0 r e PE. destruct (script_tree LG ST SP) as (ts & a & c & k & T & P & S). rewrite OK in S. destruct (e_valid e) eqn:V; [|reflexivity].
  apply (parse_valid (B := fun _ => 0) (e0 := fresh_env) T eq_refl eq_refl heap_fresh PE) in V. destruct V as (l' & n & a' & c' & k' & P' & S').
  destruct (tokens_total text) as (ts' & T' & EE & _). unfold tokens in T, T'. rewrite T in T'. injection T' as <-. destruct (parses_unique EE P P') as (<- & _). congruence.
Qed.
