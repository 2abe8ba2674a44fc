(** Property C68: the memory a parse takes is linear in the length of the text, at every moment.  Vocabulary: see PropStmt.v; [held]: the number of live blocks
    of the machine; [next]: how many blocks have ever been allocated. *)
From Verif Require Import Memory PropParse.
From Verif Require Import Base TokenCodes LexModel Ast Heap Actions ParseModel Api LexRel.
From Coq Require Import ZifyBool ZifyNat ZifyN.
Local Open Scope nat_scope.

(** The number of blocks (objects, vectors, strings) a parse may allocate for a text of [n] bytes. *)
Definition blocks (n : nat) : nat := 51 * n + 699.
Lemma rounds_bound sql ts e : tokens sql ts -> rounds (parse_fuel (List.length ts)) (parse_init ts e) <= 17 * (List.length sql + 1) + 216.
Proof. intro T. destruct (C01_parse_terminates [] sql e) as (ts' & T' & L & _ & R & _). unfold tokens in *. rewrite T in T'. injection T' as <-. lia. Qed.
Lemma later_fuel ts e k p : ends_eof ts -> later k (parse_init ts e) = Some p -> k < parse_fuel (List.length ts).
Proof.
  intros EE E. destruct (yyparse_terminates e EE) as [A _]. unfold yyparse in A. revert E A. generalize (parse_init ts e) (parse_fuel (List.length ts)). clear EE. revert p.
  induction k as [|k IH]; intros p q f E A; destruct f as [|f]; cbn [run later] in *; try lia; try (now elim A). destruct (step q) as [q'|c e'|u]; try discriminate E. specialize (IH p q' f E A). lia.
Qed.
(** At the end of a parse: everything allocated during the parse, whether still in use or not; and what is in use. *)
Theorem C68_allocated : forall buf0 sql r e c e', parse_into buf0 sql r e = PRet c e' ->
  next e' <= next e + blocks (List.length sql) /\ held e' <= held e + blocks (List.length sql).
Proof.
  intros buf0 sql r e c e' P. unfold parse_into, parse in P. destruct (tokens_total sql) as (ts & T & EE & _ & LB). rewrite LB in P. destruct (yyparse ts (with_result r e)) as [c1 e1|u|] eqn:Y; try discriminate P. injection P as _ <-.
  unfold yyparse in Y. pose proof (run_takes Y) as TK. pose proof (rounds_bound sql ts (with_result r e) T) as RB. change (next (p_env (parse_init ts (with_result r e)))) with (next e) in TK.
  assert (C : covered (held e) (next e) e1) by (eapply covered_run; [|exact Y]; unfold covered; cbn; change (next (with_result r e)) with (next e); unfold held, next; cbn; lia).
  unfold covered in C. unfold blocks. change (next (set_valid (c1 =? 0)%Z e1)) with (next e1). change (held (set_valid (c1 =? 0)%Z e1)) with (held e1). lia.
Qed.
(** At every moment in between. *)
Theorem C68_at_every_moment : forall sql ts r e k p, tokens sql ts -> later k (parse_init ts (with_result r e)) = Some p ->
  held (p_env p) <= held e + blocks (List.length sql).
Proof.
  intros sql ts r e k p T L. destruct (tokens_total sql) as (ts' & T' & EE & _). unfold tokens in *. rewrite T in T'. injection T' as <-.
  pose proof (later_rounds L (later_fuel _ _ _ _ EE L)) as R. pose proof (rounds_bound sql ts (with_result r e) T) as RB. pose proof (later_takes L) as TK. change (next (p_env (parse_init ts (with_result r e)))) with (next e) in TK.
  assert (C : covered (held e) (next e) (p_env p)) by (eapply covered_later; [|exact L]; unfold covered; cbn; unfold held, next; cbn; lia). unfold covered in C. unfold blocks. lia.
Qed.
(** The strings. *)
Definition string_bytes (v : tokval) : nat := match v with TVStr s => List.length s | _ => 0 end.
Definition all_bytes (l : list (Z * tokval)) : nat := list_sum (map (fun x => string_bytes (snd x)) l).
Definition pending (s : Z) (buf : bytes) : nat := if (s =? 3)%Z then List.length buf else 0.
Lemma removelast_length (l : bytes) : List.length (removelast l) <= List.length l.
Proof. induction l as [|c l IH]; cbn; [lia|]. destruct l; cbn in *; lia. Qed.
Lemma tl_length (l : bytes) : List.length (tl l) <= List.length l. Proof. destruct l; cbn; lia. Qed.
Lemma rule_bytes r t s buf p : t <> [] -> (s = 3 \/ ~ 185 <= r <= 187)%Z ->
  match run_rule r t (mkLex s buf p) with
  | Skip st' => pending (lx_start st') (lx_buf st') <= pending s buf + List.length t
  | Ret _ v st' => string_bytes v + pending (lx_start st') (lx_buf st') <= pending s buf + List.length t
  end.
Proof.
  intros NE O. assert (L : 1 <= List.length t) by (destruct t; [now elim NE|cbn; lia]). pose proof (removelast_length (tl t)) as L1. pose proof (tl_length t) as L2.
  unfold run_rule. cbn [lx_start lx_buf lx_pos]. destruct (token_rule r); destruct (strtoll0 t); rule_cases; cbn [lx_start lx_buf lx_pos string_bytes]; unfold pending; try (destruct (s =? 3)%Z eqn:S); cbn [Z.eqb Z.add Z.mul]; rewrite ?app_length; cbn [List.length]; try lia. all: simpl; lia.
Qed.
Lemma best_pos s rest r n : is_start s -> ~ In NUL rest -> rest <> [] -> best (active s) rest r n -> 1 <= n.
Proof.
  intros S N NE B. destruct (@lex_step_total (mkLex s [] pos0) rest S N) as [[-> _]|(r' & n' & B' & L & _)]; [now elim NE|]. cbn [lx_start] in B'. destruct (best_unique B B') as [_ ->]. lia.
Qed.
Lemma lexes_bytes s buf rest l : lexes s buf rest l -> ~ In NUL rest -> all_bytes l <= pending s buf + List.length rest.
Proof.
  assert (OK : forall s r n rest, is_start s -> best (active s) rest r n -> (s = 3 \/ ~ 185 <= r <= 187)%Z).
  { intros s0 r n rest0 S B. destruct (Z.eq_dec s0 3) as [|N]; [now left|]. right. destruct B as (_ & M & _). eapply code_rule; eassumption. }
  assert (CUT : forall s r n rest, is_start s -> ~ In NUL rest -> rest <> [] -> best (active s) rest r n -> firstn n rest <> [] /\ List.length (firstn n rest) + List.length (skipn n rest) = List.length rest).
  { intros s0 r n rest0 S N NE B. split; [|rewrite <- app_length; now rewrite firstn_skipn]. pose proof (best_pos _ _ _ _ S N NE B) as L. destruct rest0; [now elim NE|]. destruct n; [lia|]. discriminate. }
  assert (SK : forall n (rest : bytes), ~ In NUL rest -> ~ In NUL (skipn n rest)) by (intros n0 rest0 N I; apply N; rewrite <- (firstn_skipn n0 rest0); apply in_or_app; now right).
  induction 1 as [s buf S|s buf rest r n st' l S NE B R E L IH|s buf rest r n c v st' l S NE B R E C L IH|s buf rest r n c v st' S NE B R E C]; intro N.
  - cbn. lia.
  - destruct (CUT _ _ _ _ S N NE B) as [NF LF]. pose proof (rule_bytes r (firstn n rest) s buf pos0 NF (OK _ _ _ _ S B)) as RB. rewrite E in RB. specialize (IH (SK _ _ N)). lia.
  - destruct (CUT _ _ _ _ S N NE B) as [NF LF]. pose proof (rule_bytes r (firstn n rest) s buf pos0 NF (OK _ _ _ _ S B)) as RB. rewrite E in RB. specialize (IH (SK _ _ N)). unfold all_bytes in *. cbn [map list_sum fold_right snd]. unfold list_sum in *. lia.
  - destruct (CUT _ _ _ _ S N NE B) as [NF LF]. pose proof (rule_bytes r (firstn n rest) s buf pos0 NF (OK _ _ _ _ S B)) as RB. rewrite E in RB. unfold all_bytes. cbn [map list_sum fold_right snd]. lia.
Qed.
(** The strings the scanner copies for the parser (the only strings of a statement) are together no longer than the text. *)
Theorem C68_strings : forall sql ts, tokens sql ts -> list_sum (map (fun t => string_bytes (t_val t)) ts) <= List.length sql.
Proof.
  intros sql ts T. pose proof (lexes_bytes _ _ _ _ (tokens_lexes T) (c_string_NUL (s:=sql))) as L. unfold all_bytes in L. rewrite map_map in L. cbn [core snd] in L. change (pending 1 []) with 0 in L.
  assert (C : List.length (c_string sql) <= List.length sql) by (clear; induction sql as [|c sql IH]; cbn [c_string List.length]; [lia|]; destruct (byte_eqb c NUL); cbn [List.length]; lia). lia.
Qed.

(** The bounds are about something: this parse allocates 15 blocks, 14 of which the result object keeps; after 40 rounds there are 7. *)
Definition memory_example : bytes := la "SELECT a, 'xyz' FROM t WHERE b BETWEEN 1 AND 2;".
Example C68_example :
  (exists c e', parse_into [] memory_example ctor fresh_env = PRet c e' /\ c = 0%Z /\ next e' - next fresh_env = 15 /\ held e' = 14) /\
  (exists ts p, tokens memory_example ts /\ later 40 (parse_init ts (with_result ctor fresh_env)) = Some p /\ held (p_env p) = 7) /\
  (exists ts, tokens memory_example ts /\ list_sum (map (fun t => string_bytes (t_val t)) ts) = 6) /\ blocks (List.length memory_example) = 3096.
Proof.
  split; [|split; [|split]].
  - eexists _, _. split; [vm_compute; reflexivity|]. split; [reflexivity|]. vm_compute. split; reflexivity.
  - eexists _, _. split; [vm_compute; reflexivity|]. split; [vm_compute; reflexivity|]. vm_compute. reflexivity.
  - eexists. split; vm_compute; reflexivity.
  - reflexivity.
Qed.
