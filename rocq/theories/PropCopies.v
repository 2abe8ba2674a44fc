(** Property C71: what copying the list of parameters costs.  Vocabulary: [tokens], [parse], [parse_into], [qmarks] as in PropParse.v. *)
From Verif Require Import Copies PropParse ParamProof.
From Verif Require Import Base TokenCodes LexModel Ast Heap Actions ParseModel Api LexRel.
From Coq Require Import ZifyBool ZifyNat ZifyN.
Local Open Scope nat_scope.

(** The elements of parameter lists copied while a text with the tokens [ts] is parsed (see [copies] in Copies.v). *)
Definition elements_copied (ts : list token) (e : env) : nat := copies (parse_fuel (List.length ts)) (parse_init ts e).
(** A bound for the rounds of the parser loop for a text of [n] bytes (C01). *)
Definition round_bound (n : nat) : nat := 17 * n + 233.
Lemma rounds_of sql ts e : tokens sql ts -> rounds (parse_fuel (List.length ts)) (parse_init ts e) <= round_bound (List.length sql).
Proof. intro T. destruct (C01_parse_terminates [] sql e) as (ts' & T' & L & _ & R & _). unfold tokens in *. rewrite T in T'. injection T' as <-. unfold round_bound. lia. Qed.

(** Whatever the outcome and the result object: at most quadratic in the length of the text. *)
Theorem C71_at_most : forall buf0 sql ts r e c e', tokens sql ts -> parse_into buf0 sql r e = PRet c e' ->
  elements_copied ts (with_result r e) <= (round_bound (List.length sql) + 200) * round_bound (List.length sql).
Proof.
  intros buf0 sql ts r e c e' T P. unfold parse_into, parse in P. destruct (tokens_total sql) as (ts' & T' & EE & _ & LB). unfold tokens in *. rewrite T in T'. injection T' as <-. rewrite LB in P.
  destruct (yyparse ts (with_result r e)) as [c1 e1|u|] eqn:Y; try discriminate P. unfold yyparse in Y. pose proof (copies_most Y) as M. pose proof (run_plist Y) as L. pose proof (rounds_of sql ts (with_result r e) T) as R.
  change (pl (p_env (parse_init ts (with_result r e)))) with 0 in L. unfold elements_copied. assert ((if (c1 =? 1)%Z then YYINITDEPTH else 0) <= 200) by (destruct (c1 =? 1)%Z; unfold YYINITDEPTH; lia).
  revert M L R H. generalize (round_bound (List.length sql)). intros. nia.
Qed.
(** A valid text with [q] parameters: at least 1 + 2 + ... + q, so a statement with many parameters takes quadratic time; without parameters nothing is copied;
    and a fixed number of parameters costs linear time. *)
Theorem C71_parameters_are_quadratic : forall buf0 sql ts c e, tokens sql ts -> parse buf0 sql fresh_env = PRet c e -> e_valid e = true ->
  qmarks ts * (qmarks ts + 1) / 2 <= elements_copied ts fresh_env <= qmarks ts * round_bound (List.length sql).
Proof.
  intros buf0 sql ts c e T P V. destruct (C18_parameters _ _ _ _ _ T P V) as (addrs & QA & EP & _).
  pose proof (parse_fresh buf0 T) as O. rewrite P in O. cbn [parse_outcome] in O. destruct O as [(-> & _ & e1 & -> & (tl & semi & k & lost & _ & _ & _ & _ & [_ RP] & _))|(_ & V' & _)]; [|congruence].
  assert (L : pl e1 = qmarks ts).
  { cbn [e_params set_valid fresh_env app] in *. apply (f_equal (@List.length _)) in EP. rewrite combine_length, map_length, seq_length, QA, Nat.min_id in EP. rewrite <- EP, RP. unfold pl. clear.
    generalize 0%Z. induction (e_plist e1) as [|a l IH]; intro z; [reflexivity|]. cbn [numbers List.length app]. now rewrite <- IH. }
  unfold parse in P. destruct (tokens_total sql) as (ts' & T' & EE & _ & LB). unfold tokens in *. rewrite T in T'. injection T' as <-. rewrite LB in P. destruct (yyparse ts fresh_env) as [c1 e2|u|] eqn:Y; try discriminate P.
  assert (c1 = 0%Z) as -> by congruence. assert (L2 : pl e2 = qmarks ts) by (rewrite <- L; unfold pl; apply (f_equal (fun o => match o with PRet _ e => e_plist e | _ => [] end)) in P; cbn [e_plist set_valid] in P; now rewrite P).
  unfold yyparse in Y. pose proof (copies_most Y) as M. assert (N : 0%Z <> 1%Z) by discriminate. pose proof (copies_least Y N) as LO. pose proof (rounds_of sql ts fresh_env T) as R. rewrite L2 in *. change (pl (p_env (parse_init ts fresh_env))) with 0 in LO. cbn [Z.eqb] in M. unfold elements_copied.
  revert M LO R. generalize (copies (parse_fuel (List.length ts)) (parse_init ts fresh_env)) (rounds (parse_fuel (List.length ts)) (parse_init ts fresh_env)) (round_bound (List.length sql)) (qmarks ts). clear. intros x y z q M LO R.
  split; [|nia]. apply Nat.div_le_upper_bound; lia.
Qed.

(** Three parameters: 6 <= 96; the same text without: 0. *)
Definition copies_example : bytes := la "SELECT ?, a FROM t WHERE b = ? LIMIT ?".
Example C71_example : exists ts e, tokens copies_example ts /\ parse [] copies_example fresh_env = PRet 0 e /\ e_valid e = true /\ qmarks ts = 3 /\ elements_copied ts fresh_env = 96.
Proof. eexists _, _. split; [vm_compute; reflexivity|]. split; [vm_compute; reflexivity|]. vm_compute. repeat split; reflexivity. Qed.
Example C71_example_none : exists ts, tokens (la "SELECT 1, a FROM t WHERE b = 2 LIMIT 3") ts /\ elements_copied ts fresh_env = 0.
Proof. eexists. split; [vm_compute; reflexivity|vm_compute; reflexivity]. Qed.
(** A text that fails behind its parameter copies, too. *)
Example C71_example_error : exists ts e, tokens (la "SELECT ?, ?, FROM") ts /\ parse_into [] (la "SELECT ?, ?, FROM") ctor fresh_env = PRet 1 e /\ elements_copied ts (with_result ctor fresh_env) = 38.
Proof. eexists _, _. split; [vm_compute; reflexivity|]. split; [vm_compute; reflexivity|vm_compute; reflexivity]. Qed.
