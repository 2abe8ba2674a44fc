(** Properties C01, C02, C03, C17, C18, C20, C22, C23, C24, C35, C39: statements about parse and tokenize.

    Vocabulary of the statements.  [parse buf0 sql e] (Api.v) is the call SQLParser::parse(sql, &result) in a machine [e] that
    holds the heap and the result object; [buf0] is whatever earlier scans left in the thread-local string buffer.  Its
    outcome is [PRet code e'] (the call returned), [PUB u] (undefined behaviour u) or [PFuel] (the loop did not end within
    its bound).  [fresh_env]: empty heap, default constructed result.  [tokens sql ts]: [ts] are the tokens of the input, the last one being
    the end of input. *)
From Verif Require Import ParseProof ParamProof.
From Coq Require Import ZifyBool ZifyNat ZifyN Permutation.
Local Open Scope nat_scope.

(** ** C01: parse always comes back, after at most linearly many rounds of the parser loop *)
Theorem C01_parse_terminates : forall buf0 sql e, exists ts,
  tokens sql ts /\ List.length ts <= List.length sql + 1 /\
  parse buf0 sql e <> PFuel /\
  (Z.of_nat (rounds (parse_fuel (List.length ts)) (parse_init ts e)) <= 17 * Z.of_nat (List.length ts) + 216)%Z /\
  (forall r e', parse buf0 sql e = PRet r e' -> (e_valid e' = true <-> r = 0%Z)).
Proof.
  intros buf0 sql e. destruct (tokens_total sql) as (ts & T & EE & TO & LB). exists ts. destruct (yyparse_terminates e EE) as [A B].
  split; [exact T|]. split; [apply tokens_count; exact T|]. unfold parse. rewrite LB. split; [|split; [exact B|]].
  - destruct (yyparse ts e); congruence.
  - intros r e'. destruct (yyparse ts e) as [r1 e1|u|]; try discriminate. intro E. injection E as <- <-. cbn [set_valid e_valid]. lia.
Qed.
(** The loop really runs: this input takes more than 20 rounds. *)
Example C01_example : exists ts, tokens (la "SELECT a FROM t;") ts /\ 20 < rounds (parse_fuel (List.length ts)) (parse_init ts fresh_env).
Proof. eexists. split; [vm_compute; reflexivity|]. apply Nat.ltb_lt. vm_compute. reflexivity. Qed.

(** ** C02: no undefined behaviour *)
(** The text begins (after white space and a sign) with a number outside the range of int. *)
Definition digits_val (ds : bytes) : Z := fold_left (fun n c => n * 10 + (bz c - 48))%Z ds 0%Z.
Definition huge_number (s : bytes) : Prop :=
  exists blanks sign ds rest, s = blanks ++ sign ++ ds ++ rest /\ forallb is_space blanks = true /\ forallb is_digit ds = true /\
    (sign = [] \/ sign = ["+"%char]) /\ (digits_val ds > 2147483647)%Z \/
  exists blanks ds rest, s = blanks ++ ["-"%char] ++ ds ++ rest /\ forallb is_space blanks = true /\ forallb is_digit ds = true /\
    (digits_val ds > 2147483648)%Z.
Lemma skip_space_split s : exists b, s = b ++ skip_space s /\ forallb is_space b = true.
Proof.
  induction s as [|c s IH]; [exists []; auto|]. cbn [skip_space]. destruct (is_space c) eqn:E; [|exists []; auto].
  destruct IH as (b & E1 & E2). exists (c :: b). cbn [app forallb]. rewrite E, E2. split; [now f_equal|reflexivity].
Qed.
Lemma scan_digits_split w : forall acc n s v m r, scan_digits w acc n s = (v, m, r) ->
  exists ds, s = ds ++ r /\ forallb is_digit ds = true /\ v = fold_left (fun n c => n * 10 + (bz c - 48))%Z ds acc.
Proof.
  induction w as [|w IH]; intros acc n s v m r E; cbn [scan_digits] in E; [injection E as <- _ <-; exists []; auto|].
  destruct s as [|c s]; [injection E as <- _ <-; exists []; auto|]. destruct (is_digit c) eqn:D; [|injection E as <- _ <-; exists []; auto].
  destruct (IH _ _ _ _ _ _ E) as (ds & -> & F & ->). exists (c :: ds). cbn [app forallb fold_left]. rewrite D. split; [reflexivity|]. split; [exact F|]. reflexivity.
Qed.
Lemma digits_nonneg ds : forall acc, (0 <= acc)%Z -> forallb is_digit ds = true -> (0 <= fold_left (fun n c => n * 10 + (bz c - 48)) ds acc)%Z.
Proof. induction ds as [|c ds IH]; intros acc A F; [exact A|]. cbn [fold_left forallb] in *. apply andb_prop in F as [F1 F2]. apply IH; [|exact F2]. unfold is_digit, in_range in F1. lia. Qed.
Lemma digits_bound ds : forall acc, forallb is_digit ds = true -> (0 <= acc)%Z -> (fold_left (fun n c => n * 10 + (bz c - 48)) ds acc < (acc + 1) * 10 ^ Z.of_nat (List.length ds))%Z.
Proof.
  induction ds as [|c ds IH]; intros acc F A; cbn [fold_left List.length forallb] in *; [cbn; lia|]. apply andb_prop in F as [F1 F2]. unfold is_digit, in_range in F1.
  specialize (IH (acc * 10 + (bz c - 48))%Z F2 ltac:(lia)). rewrite Nat2Z.inj_succ, Z.pow_succ_r by lia. nia.
Qed.
Lemma scan_d_huge w s d r : scan_d w s = Some (d, r) -> fits_int d = false -> huge_number s.
Proof.
  unfold scan_d, fits_int, INT_MIN, INT_MAX. intros E F. destruct (skip_space_split s) as (b & ES & EB). destruct (skip_space s) as [|c s'] eqn:SK; [discriminate|].
  destruct (byte_eqb c "-"%char) eqn:M.
  - cbn [orb] in E. destruct (scan_digits (Nat.pred w) 0 0 s') as [[v m] r'] eqn:SD. destruct m; [discriminate|]. injection E as <- <-.
    destruct (scan_digits_split _ _ _ _ _ _ _ SD) as (ds & -> & FD & EV). apply byte_eqb_eq in M. subst c.
    exists [], [], [], []. right. exists b, ds, r'. repeat split; auto. unfold digits_val. rewrite <- EV.
    assert (0 <= v)%Z.
    { rewrite EV. apply digits_nonneg; [lia|exact FD]. }
    lia.
  - cbn [orb] in E. destruct (byte_eqb c "+"%char) eqn:P.
    + destruct (scan_digits (Nat.pred w) 0 0 s') as [[v m] r'] eqn:SD. destruct m; [discriminate|]. injection E as <- <-.
      destruct (scan_digits_split _ _ _ _ _ _ _ SD) as (ds & -> & FD & EV). apply byte_eqb_eq in P. subst c.
      exists b, ["+"%char], ds, r'. left. repeat split; auto. unfold digits_val. rewrite <- EV.
      assert (0 <= v)%Z.
      { rewrite EV. apply digits_nonneg; [lia|exact FD]. }
      lia.
    + destruct (scan_digits w 0 0 (c :: s')) as [[v m] r'] eqn:SD. destruct m; [discriminate|]. injection E as <- <-.
      destruct (scan_digits_split _ _ _ _ _ _ _ SD) as (ds & EQ & FD & EV). exists b, [], ds, r'. left. cbn [app]. rewrite <- EQ. repeat split; auto. unfold digits_val. rewrite <- EV.
      assert (0 <= v)%Z.
      { rewrite EV. apply digits_nonneg; [lia|exact FD]. }
      lia.
Qed.
Lemma scan_SUB s : scan_interval1 s = SUB \/ scan_interval2 s = SUB -> huge_number s.
Proof.
  unfold scan_interval1, scan_interval2. destruct (scan_d (List.length s) s) as [[d r]|] eqn:E; [|intros []; discriminate].
  destruct (fits_int d) eqn:F; [|intros _; eapply scan_d_huge; eassumption]. destruct r; intros [H|H]; try discriminate H; destruct (scan_word 7 (skip_space _)) as [[|] []]; discriminate H.
Qed.
(** Full statement: every parse into a fresh result returns.  It fails only for string literals beginning with a number that does
    not fit into int (their use in INTERVAL '...' makes sscanf overflow, see C02_refuted); without them it holds. *)
Theorem C02_no_undefined_behaviour_partial : forall buf0 sql ts, tokens sql ts ->
  (forall t s, In t ts -> t_code t = TOK_STRING -> t_val t = TVStr s -> ~ huge_number s) ->
  exists r e, parse buf0 sql fresh_env = PRet r e.
Proof.
  intros buf0 sql ts T H. pose proof (parse_fresh buf0 T) as P. destruct (parse buf0 sql fresh_env) as [r e|u|]; [eauto| |destruct P].
  destruct P as (_ & t & s & I & ST & V & B). exfalso. apply (H t s I); [|exact V|now apply scan_SUB].
  destruct (lex_all_codes T) as (ts' & tn & -> & TN & _ & F). unfold sym_of in ST.
  assert (A : forallb (fun z => (z =? TOK_STRING)%Z || negb (N.eqb (sym_of_code z) S_STRING)) (TableCheck.zrange 1000 0) = true) by (vm_compute; reflexivity).
  rewrite forallb_forall in A. assert (R : (0 <= t_code t < 1000)%Z).
  { apply in_app_iff in I as [I|[<-|[]]]; [rewrite Forall_forall in F; specialize (F _ I); lia|lia]. }
  assert (IZ : In (t_code t) (TableCheck.zrange 1000 0)) by (apply TableCheck.zrange_In; lia). specialize (A _ IZ). rewrite ST, N.eqb_refl in A. cbn [negb] in A. rewrite orb_false_r in A. lia.
Qed.
(** The excluded case is real: sscanf("%d") overflows. *)
Theorem C02_refuted : exists sql, forall buf0, parse buf0 sql fresh_env = PUB UScanf.
Proof. exists (la "SELECT INTERVAL '99999999999 days'"). intro. unfold parse. rewrite lex_all_buf. vm_compute. reflexivity. Qed.
Example C02_example : exists ts, tokens (la "SELECT INTERVAL '5 days' + 'x' FROM t WHERE a = '99'") ts /\ (exists t, In t ts /\ t_code t = TOK_STRING) /\
  forall t s, In t ts -> t_code t = TOK_STRING -> t_val t = TVStr s -> ~ huge_number s.
Proof.
  eexists. split; [vm_compute; reflexivity|]. split; [eexists; split; [right; right; left; reflexivity|reflexivity]|].
  assert (G : forall s, (List.length s <= 6)%nat -> ~ huge_number s).
  { intros s L (b & sg & ds & r & [(-> & _ & D & _ & V)|(b' & ds' & r' & -> & _ & D & V)]).
    - rewrite !app_length in L. pose proof (digits_bound ds 0%Z D ltac:(lia)) as K. unfold digits_val in V. assert (10 ^ Z.of_nat (List.length ds) <= 10 ^ 6)%Z by (apply Z.pow_le_mono_r; lia). lia.
    - rewrite !app_length in L. pose proof (digits_bound ds' 0%Z D ltac:(lia)) as K. unfold digits_val in V. assert (10 ^ Z.of_nat (List.length ds') <= 10 ^ 6)%Z by (apply Z.pow_le_mono_r; lia). lia. }
  intros t s I _ V. apply G. cbn [In] in I. repeat (destruct I as [<-|I]; [cbn [t_val] in V; try discriminate V; injection V as <-; vm_compute; repeat constructor|]). destruct I.
Qed.

(** ** C03: what is accepted is derivable, and the statements are the value of the derivation *)
(** [derives], [yield] (Grammar.v): derivation trees over the productions of bison_parser.y.  [sem] (Sem.v): the object tree
    each production denotes.  [erase] forgets addresses. *)
Theorem C03_soundness : forall buf0 sql ts r e, tokens sql ts -> parse buf0 sql fresh_env = PRet r e -> e_valid e = true ->
  exists stmts semi eof n, derives S_input (Node 2 [stmts; semi]) /\ yield (Node 2 [stmts; semi]) ++ [eof] = ts /\ sym_of eof = 0%N /\
    sem stmts 0 = Some (VVec 0 (map erase (e_stmts e)), n).
Proof.
  intros buf0 sql ts r e T P V. destruct (parse_sound T P) as (_ & lost & _ & A & _). destruct (A V) as (tl & semi & k & D & Y & K & S & _).
  exists tl, semi, k, (List.length (e_plist e)). split; [exact D|]. split; [|auto]. cbn [yield flat_map]. rewrite app_nil_r, <- app_assoc. exact Y.
Qed.
Example C03_example : exists ts e, tokens (la "SELECT a, 1 FROM t WHERE b = ?; DROP TABLE x") ts /\
  parse [] (la "SELECT a, 1 FROM t WHERE b = ?; DROP TABLE x") fresh_env = PRet 0 e /\ e_valid e = true /\ List.length (e_stmts e) = 2.
Proof. eexists _, _. split; [vm_compute; reflexivity|]. split; [vm_compute; reflexivity|]. vm_compute. auto. Qed.

(** ** C17: only the bytes before the first NUL count *)
Theorem C17_embedded_nul : forall buf0 a b e, ~ In NUL a ->
  parse buf0 (a ++ NUL :: b) e = parse buf0 a e /\ tokenize buf0 (a ++ NUL :: b) = tokenize buf0 a.
Proof.
  intros buf0 a b e N. assert (C : c_string (a ++ NUL :: b) = c_string a).
  { revert N. induction a as [|c a IH]; intro N; [reflexivity|]. cbn [app c_string]. destruct (byte_eqb c NUL) eqn:E; [reflexivity|]. f_equal. apply IH. intro I. apply N. now right. }
  unfold parse, tokenize, lex_all. now rewrite C.
Qed.
Example C17_example : ~ In NUL (la "SELECT 1") /\ exists e, parse [] (la "SELECT 1" ++ NUL :: la "garbage (") fresh_env = PRet 0 e.
Proof. split; [intro H; cbn in H; repeat (destruct H as [H|H]; [discriminate H|]); exact H|]. eexists. vm_compute. reflexivity. Qed.

(** ** C18: parameter numbering *)
(** [params_of] lists (address, ival, ival2) of all parameter expressions inside the statements. *)
Theorem C18_parameters : forall buf0 sql ts r e, tokens sql ts -> parse buf0 sql fresh_env = PRet r e -> e_valid e = true ->
  exists addrs, List.length addrs = qmarks ts /\
    e_params e = combine addrs (map Z.of_nat (seq 0 (qmarks ts))) /\
    Permutation (params_of (e_stmts e)) (iths 0 addrs) /\
    (* source order: numbering follows the derivation from left to right *)
    exists stmts semi eof, derives S_input (Node 2 [stmts; semi]) /\ yield (Node 2 [stmts; semi]) ++ [eof] = ts /\
      sem stmts 0 = Some (VVec 0 (map erase (e_stmts e)), qmarks ts).
Proof.
  intros buf0 sql ts r e T P V. pose proof (parse_fresh buf0 T) as O. rewrite P in O. cbn [parse_outcome] in O.
  destruct O as [(_ & _ & e1 & -> & (tl & semi & k & lost & D & Y & K & EQ & [RS RP] & H & L))|(_ & V' & _)]; [|congruence].
  destruct RS as (l & ES & WL & SM & NB & CP). cbn [e_stmts e_params fresh_env app set_valid] in *. rewrite ES in *. clear ES.
  assert (Q : List.length (e_plist e1) = qmarks ts).
  { inversion D as [|? ? ? ? P2 DL]; subst. rewrite InvStep.production_2 in P2. injection P2 as <-. inversion DL as [|? ? ? ? D1 DL1]; subst. inversion DL1 as [|? ? ? ? D2 DL2]; subst.
    assert (N1 : S_statement_list <> S_qmark) by discriminate. pose proof (sem_count D1 SM N1) as C. cbn [plus] in C. rewrite C.
    rewrite <- qs_qmarks, !qs_app. assert (qs [k] = 0) as ->; [unfold qs; cbn [filter]; unfold is_q; rewrite K; reflexivity|].
    assert (qs (yield semi) = 0); [|lia].
    inversion D2 as [t0 E0|r0 lhs rhs ts0 P0 D0 E0]; subst; [unfold qs; cbn [yield filter]; unfold is_q; rewrite E0; reflexivity|]. assert (A : forallb (fun p => negb (N.eqb (fst (snd p)) S_opt_semicolon) || match snd (snd p) with [] => true | [X] => N.eqb X S_semi | _ => false end) GrammarDef.grammar = true) by (vm_compute; reflexivity).
    rewrite forallb_forall in A. specialize (A _ (production_In P0)). cbn [fst snd] in A. rewrite N.eqb_refl in A. cbn [negb orb] in A.
    destruct rhs as [|X [|]]; try discriminate A; inversion D0 as [|? ? ? ? D3 DL3]; subst; [reflexivity|]. inversion DL3; subst. apply N.eqb_eq in A. subst X.
    destruct (derives_terminal D3) as (k0 & -> & S0); [reflexivity|]. unfold qs. cbn [yield flat_map app filter]. unfold is_q. rewrite S0. reflexivity. }
  exists (e_plist e1). split; [exact Q|]. split; [|split].
  - rewrite RP. clear -Q. rewrite <- Q. clear Q. generalize (e_plist e1) as ps. intro ps. change 0%Z with (Z.of_nat 0). generalize 0 as i. induction ps as [|a ps IH]; intro i; [reflexivity|].
    cbn [numbers List.length seq map combine]. f_equal. rewrite <- IH. f_equal. lia.
  - rewrite (params_listed WL NB CP). assert (E : forall ps i, map (fun q => (fst q, Some (VInt (snd q)), Some (VInt (snd q)))) (numbers ps (Z.of_nat i)) = iths i ps).
    { clear. induction ps as [|a ps IH]; intro i; [reflexivity|]. cbn [numbers map iths]. f_equal. rewrite <- IH. do 2 f_equal. lia. }
    specialize (E (e_plist e1) 0). cbn [Z.of_nat] in E. rewrite E. reflexivity.
  - exists tl, semi, k. rewrite <- Q. split; [exact D|]. split; [|exact SM]. cbn [yield flat_map]. rewrite app_nil_r, <- app_assoc. exact Y.
Qed.
Example C18_example : exists ts e, tokens (la "SELECT ?, a FROM t WHERE b = ? LIMIT ?") ts /\ parse [] (la "SELECT ?, a FROM t WHERE b = ? LIMIT ?") fresh_env = PRet 0 e /\
  qmarks ts = 3 /\ List.length (e_params e) = 3.
Proof. eexists _, _. split; [vm_compute; reflexivity|]. split; [vm_compute; reflexivity|]. vm_compute. auto. Qed.

(** ** C20: errors are reported, at the position of a token *)
Theorem C20_errors : forall buf0 sql ts r e, tokens sql ts -> parse buf0 sql fresh_env = PRet r e ->
  (e_valid e = true -> e_msg e = VNull) /\
  (e_valid e = false -> (exists a s, e_msg e = VStr a s) /\
     exists before text after, c_string sql = before ++ text ++ after /\ e_line e = VInt (lines before) /\ e_col e = VInt (column before) /\
       exists t, In t ts /\ covers (t_pos t) before text).
Proof.
  intros buf0 sql ts r e T P. pose proof (parse_fresh buf0 T) as O. rewrite P in O. cbn [parse_outcome] in O.
  destruct O as [(_ & V & e1 & -> & (tl & semi & k & lost & _ & _ & _ & (_ & EM & _) & _))|(_ & V & e1 & -> & ((_ & M & l & c & I & EL & EC) & _))].
  - split; [intros _; exact EM|intro F; rewrite V in F; discriminate].
  - split; [intro F; rewrite V in F; discriminate|]. intros _. split; [exact M|]. unfold starts in I. apply in_map_iff in I as (t & E & I). injection E as <- <-.
    destruct (in_split _ _ I) as (a & b & ->). destruct (lex_positions T) as (bf & tx & af & EW & CV & _). exists bf, tx, af. split; [exact EW|].
    destruct CV as (C1 & C2 & CV). cbn [set_valid e_line e_col]. rewrite EL, EC, C1, C2. split; [reflexivity|]. split; [reflexivity|].
    exists t. split; [exact I|]. unfold covers. auto.
Qed.
Example C20_example : exists ts e, tokens (la "SELECT 1" ++ LF :: la "  FROM FROM") ts /\ parse [] (la "SELECT 1" ++ LF :: la "  FROM FROM") fresh_env = PRet 1 e /\
  e_valid e = false /\ e_line e = VInt 1 /\ e_col e = VInt 7.
Proof. eexists _, _. split; [vm_compute; reflexivity|]. split; [vm_compute; reflexivity|]. vm_compute. auto. Qed.

(** ** C22: failed parses and statements *)
(** The English property is false of the code. *)
Theorem C22_refuted : exists sql, forall buf0, exists r e, parse buf0 sql fresh_env = PRet r e /\ e_valid e = false /\ List.length (e_stmts e) = 1.
Proof. exists (la "COMMIT 1"). intro. unfold parse. rewrite lex_all_buf. eexists _, _. split; [vm_compute; reflexivity|]. split; reflexivity. Qed.
(** What holds: there are no statements, or exactly those of a beginning of the input that is itself derivable. *)
Theorem C22_failed_parse_statements_partial : forall buf0 sql ts r e, tokens sql ts -> parse buf0 sql fresh_env = PRet r e -> e_valid e = false ->
  e_stmts e = [] \/
  exists stmts semi rest n, derives S_input (Node 2 [stmts; semi]) /\ yield (Node 2 [stmts; semi]) ++ rest = ts /\ sem stmts 0 = Some (VVec 0 (map erase (e_stmts e)), n).
Proof.
  intros buf0 sql ts r e T P V. pose proof (parse_fresh buf0 T) as O. rewrite P in O. cbn [parse_outcome] in O.
  destruct O as [(_ & V' & _)|(_ & _ & e1 & -> & (_ & ST & _))]; [congruence|]. destruct ST as [[E _]|(tl & semi & rest & D & Y & [RS _])]; [left; exact E|right].
  destruct RS as (l & ES & _ & SM & _). exists tl, semi, rest, (List.length (e_plist e1)). split; [exact D|]. split; [cbn [yield flat_map]; rewrite app_nil_r, <- app_assoc; exact Y|].
  cbn [set_valid e_stmts]. cbn [e_stmts fresh_env app] in ES. rewrite ES. exact SM.
Qed.

(** ** C23: memory *)
(** Leaks exist after successful and after failed parses. *)
Theorem C23_refuted : exists sql1 sql2, forall buf0,
  (exists r e e', parse buf0 sql1 fresh_env = PRet r e /\ e_valid e = true /\ destroy (the_result e) e = ROk tt e' /\ e_live e' <> []) /\
  (exists r e e', parse buf0 sql2 fresh_env = PRet r e /\ e_valid e = false /\ destroy (the_result e) e = ROk tt e' /\ e_live e' <> []).
Proof.
  exists (la "CREATE INDEX i ON s.t (a)"), (la "WITH a AS (SELECT 1) DROP"). intro. unfold parse. rewrite !lex_all_buf. split.
  - eexists _, _, _. split; [vm_compute; reflexivity|]. split; [reflexivity|]. split; [vm_compute; reflexivity|]. vm_compute. discriminate.
  - eexists _, _, _. split; [vm_compute; reflexivity|]. split; [reflexivity|]. split; [vm_compute; reflexivity|]. vm_compute. discriminate.
Qed.
(** Destroying the result always works; nothing remains if the parse succeeded along a derivation without array access and without
    CREATE INDEX on a table with schema, or failed on an input without the tokens WITH, FOR, UPDATE, CREATE and '['. *)
Theorem C23_no_leak_partial : forall buf0 sql ts r e, tokens sql ts -> parse buf0 sql fresh_env = PRet r e ->
  exists e', destroy (the_result e) e = ROk tt e' /\
    (e_valid e = true -> exists stmts semi eof, derives S_input (Node 2 [stmts; semi]) /\ yield (Node 2 [stmts; semi]) ++ [eof] = ts /\ (leak_free stmts = true -> e_live e' = [])) /\
    (e_valid e = false -> InvStep.clean ts = true -> e_live e' = []).
Proof.
  intros buf0 sql ts r e T P. destruct (parse_sound T P) as (S & lost & H & A & B). destruct (destroy_ok S H) as (e' & E & H'). exists e'. split; [exact E|]. split.
  - intro V. destruct (A V) as (tl & semi & k & D & Y & _ & _ & L). exists tl, semi, k. split; [exact D|]. split; [cbn [yield flat_map]; rewrite app_nil_r, <- app_assoc; exact Y|].
    intro LF. apply heap_empty. eapply heap_ext; [exact H'|]. exact (lost_blocks_zero L (leak_free_count LF)).
  - intros V C. apply heap_empty. eapply heap_ext; [exact H'|]. exact (B V C).
Qed.
Example C23_example : exists e e', parse [] (la "SELECT a AS b, 'x' FROM s.t JOIN u ON c = 1 ORDER BY d; DELETE FROM t WHERE e IN (1, 2)") fresh_env = PRet 0 e /\ 10 < List.length (e_live e) /\
  destroy (the_result e) e = ROk tt e' /\ e_live e' = [].
Proof. eexists _, _. split; [vm_compute; reflexivity|]. split; [apply Nat.ltb_lt; vm_compute; reflexivity|]. split; vm_compute; reflexivity. Qed.

(** ** C24: leftovers of earlier parses on the thread do not matter *)
Theorem C24_independent_of_string_buffer : forall buf1 buf2 sql e, parse buf1 sql e = parse buf2 sql e /\ tokenize buf1 sql = tokenize buf2 sql.
Proof. intros. unfold parse, tokenize. now rewrite (lex_all_buf buf1), (lex_all_buf buf2). Qed.

(** ** C35: tokenize delivers the codes of the tokens the parser reads, without the end of input *)
Theorem C35_tokenize : forall buf0 sql ts, tokens sql ts -> exists ts' eof, ts = ts' ++ [eof] /\ t_code eof = 0%Z /\
  tokenize buf0 sql = Some (map t_code ts') /\ Forall (fun t => t_code t <> 0%Z) ts' /\
  forall e, parse buf0 sql e = match yyparse (ts' ++ [eof]) e with PRet r e' => PRet r (set_valid (r =? 0)%Z e') | o => o end.
Proof.
  intros buf0 sql ts T. destruct (lex_all_codes T) as (ts' & t & -> & T0 & _ & F). exists ts', t. split; [reflexivity|]. split; [exact T0|].
  unfold tokenize, parse. rewrite lex_all_buf, T. cbn [obind]. split; [f_equal|split; [eapply Forall_impl; [|exact F]; cbn; intros; lia|intro e; unfold tokens in T; now rewrite T]]. clear T. induction F as [|u ts' R F IH]; cbn [app token_codes map].
  - rewrite T0. reflexivity.
  - assert (E : to_int16 (t_code u) = t_code u). { unfold to_int16. rewrite Z.mod_small by lia. destruct (t_code u <? 32768)%Z eqn:G; lia. }
    rewrite E. destruct (t_code u =? 0)%Z eqn:Z0; [lia|]. now f_equal.
Qed.
Example C35_example : exists l, tokenize [] (la "SELECT a.b FROM t;") = Some l /\ List.length l = 7.
Proof. eexists. split; vm_compute; reflexivity. Qed.

(** ** C39: position arithmetic *)
Theorem C39_positions : forall sql ts1 t ts2, tokens sql (ts1 ++ t :: ts2) ->
  let n := size (c_string sql) in
  exists before text after, c_string sql = before ++ text ++ after /\
    fl (t_pos t) = lines before /\ fc (t_pos t) = column before /\ ll (t_pos t) = lines (before ++ text) /\ lc (t_pos t) = column (before ++ text) /\
    total (t_pos t) = size (before ++ text) /\ total_len (ts1 ++ [t]) = size (before ++ text) /\
    (0 <= fl (t_pos t) <= n /\ 0 <= fc (t_pos t) <= n /\ 0 <= ll (t_pos t) <= n /\ 0 <= lc (t_pos t) <= n /\ 0 <= total (t_pos t) <= n /\ 0 <= t_len t <= n)%Z.
Proof.
  intros sql ts1 t ts2 T n. pose proof (lex_all_located T) as LO. destruct (located_split LO) as (NN & b & x & a & E & (C1 & C2 & C3 & C4 & C5) & SZ).
  exists b, x, a. cbn [Z.add] in SZ. repeat (split; [first [assumption|lia]|]).
  assert (N : n = (size b + size x + size a)%Z) by (unfold n; rewrite E, !size_app; lia).
  assert (TL : (0 <= t_len t <= size (b ++ x))%Z).
  { rewrite SZ. clear -NN. revert NN. induction ts1 as [|u l IH]; cbn [app total_len fold_right]; intro NN; inversion NN; subst; [unfold total_len; cbn; lia|]. specialize (IH H2). unfold total_len in *. lia. }
  pose proof (lines_range b). pose proof (column_range b). pose proof (lines_range (b ++ x)). pose proof (column_range (b ++ x)). rewrite size_app in *.
  assert (0 <= size a)%Z by (unfold size; lia). assert (0 <= size x)%Z by (unfold size; lia). lia.
Qed.
