(** Properties C08-C16: the scanner.

    Vocabulary of the statements.  [tokens sql ts] : [ts] is the token sequence of the input (scanned by the model of hsql_lex), ended
    by the end-of-input token; [core t] is its code and value without positions.  Start conditions: 1 INITIAL, 3 inside a string
    literal, 5 inside a comment.  [reads s text l s' rest]: the scanner, in start condition [s] at the beginning of [text], delivers the
    tokens [l] and is then in start condition [s'] at the beginning of [rest]; both points are token boundaries. *)
From Verif Require Export Keywords.
From Verif Require Import ParseProof LexRel LexScan LexWords LexTok.
From Verif Require Import LexCert TableCheck LexScan LexWords LexTok.
From Coq Require Import ZifyBool ZifyNat ZifyN.
Local Open Scope Z_scope.

Definition reads (s : Z) (text : bytes) (l : list (Z * tokval)) (s' : Z) (rest : bytes) : Prop := forall buf, exists buf', scans s buf text l s' buf' rest.
(** [boundary a rest l]: in the input [a ++ rest], a token ends or white space begins exactly behind [a], and [a] contains the tokens [l]. *)
Definition boundary (a rest : bytes) (l : list (Z * tokval)) : Prop := exists buf, scans 1 [] (a ++ rest) l 1 buf rest.
(** The codes and values of the input's tokens. *)
Definition cores (sql : bytes) (l : list (Z * tokval)) : Prop := exists ts, tokens sql ts /\ map core ts = l.

Lemma c_string_id s : ~ In NUL s -> c_string s = s.
Proof. induction s as [|c s IH]; intro N; [reflexivity|]. cbn [c_string]. destruct (byte_eqb c NUL) eqn:E; [apply byte_eqb_eq in E; subst c; destruct N; now left|]. f_equal. apply IH. intro I. apply N. now right. Qed.
Lemma lexes_cores s l : ~ In NUL s -> (lexes 1 [] s l <-> cores s l).
Proof.
  intro N. split.
  - intro H. apply lexes_tokens. rewrite (c_string_id _ N). exact H.
  - intros (ts & T & <-). apply tokens_lexes in T. rewrite (c_string_id _ N) in T. exact T.
Qed.
Lemma lexes_any s buf buf' rest l : s <> 3 -> lexes s buf rest l -> ~ In NUL rest -> lexes s buf' rest l.
Proof. intros. eapply lexes_buf; eassumption. Qed.
Lemma scans_cut s buf rest l s' buf' rest' : scans s buf rest l s' buf' rest' -> forall l2, lexes s buf rest l2 -> exists l3, l2 = l ++ l3 /\ lexes s' buf' rest' l3.
Proof.
  induction 1 as [s buf rest ST|s buf rest r n st' l s' buf' rest' ST NE B R N E H IH|s buf rest r n c v st' l s' buf' rest' ST NE B R N E C H IH]; intros l2 L; [exists l2; auto| |];
    inversion L as [s0 buf0 S2|s0 buf0 rest0 r2 n2 st2 l0 S2 NE2 B2 R2 E2 L2|s0 buf0 rest0 r2 n2 c2 v2 st2 l0 S2 NE2 B2 R2 E2 C2 L2|s0 buf0 rest0 r2 n2 c2 v2 st2 S2 NE2 B2 R2 E2 C2]; subst; try congruence;
    destruct (best_unique B B2) as [<- <-]; rewrite E in E2; try discriminate E2.
  - injection E2 as <-. exact (IH _ L2).
  - injection E2 as <- <- <-. destruct (IH _ L2) as (l3 & -> & L3). exists l3. auto.
  - injection E2 as <- <- <-. lia.
Qed.
Lemma NUL_app a b : ~ In NUL (a ++ b) <-> ~ In NUL a /\ ~ In NUL b.
Proof. rewrite in_app_iff. tauto. Qed.

(** ** C08: longest match, first rule *)
(** A rule of flex_lexer.l applies in the start condition and its regular expression matches the text. *)
Definition rule_matches (s r : Z) (w : bytes) : Prop :=
  exists wh x, In (r, (wh, x)) flex_rules /\ matches x w /\ match wh with Normal => s = 1 \/ s = 5 | CommentOnly => s = 5 | StringOnly => s = 3 end.
Lemma rule_matches_active s r w : rule_matches s r w <-> matched (active s) r w.
Proof.
  split.
  - intros (wh & x & I & M & A). exists x. split; [|exact M]. unfold active. revert I. generalize flex_rules as k. intros k I. apply in_map_iff. exists (r, (wh, x)). split; [reflexivity|].
    apply filter_In. split; [exact I|]. destruct wh; cbn [fst snd applies]; lia.
  - intros (x & I & M). destruct (active_In I) as (wh & I2 & A). exists wh, x. split; [exact I2|]. split; [exact M|]. destruct wh; cbn [applies] in A; lia.
Qed.
Theorem C08_longest_match : forall st text, (lx_start st = 1 \/ lx_start st = 3 \/ lx_start st = 5) -> ~ In NUL text -> text <> [] ->
  exists r n, (1 <= n <= List.length text)%nat /\ rule_matches (lx_start st) r (firstn n text) /\
    (forall r' m, (m <= List.length text)%nat -> rule_matches (lx_start st) r' (firstn m text) -> (m <= n)%nat /\ (m = n -> r <= r')) /\
    lex_step st text = match run_rule r (firstn n text) st with Skip st' => StepSkip st' (skipn n text) | Ret c v st' => StepTok c v st' (skipn n text) end /\
    match run_rule r (firstn n text) st with Skip st' | Ret _ _ st' => lx_start st' = 1 \/ lx_start st' = 3 \/ lx_start st' = 5 end.
Proof.
  intros st text S N NE. destruct (lex_step_total S N) as [[-> _]|(r & n & (L & M & F) & L1 & R & E)]; [congruence|]. exists r, n. split; [exact L1|]. split; [apply rule_matches_active; exact M|]. split; [|split].
  - intros r' m Lm Mm. apply rule_matches_active in Mm. exact (F r' m Lm Mm).
  - rewrite E. reflexivity.
  - pose proof (@run_rule_ok r (firstn n text) st S) as P. destruct (run_rule r (firstn n text) st); apply P.
Qed.
(** The initial state meets the hypothesis; here "SELECTED" is one identifier although SELECT is a keyword. *)
Example C08_example : exists st', lex_step (lex_init []) (la "SELECTED x") = StepTok TOK_IDENTIFIER (TVStr (la "SELECTED")) st' (la " x").
Proof. eexists. vm_compute. reflexivity. Qed.

(** ** C09: letter case *)
(** Changing the letter case anywhere changes no code, position or length; values change in letter case only. *)
Theorem C09_letter_case : forall sql sql' ts, same_case sql sql' -> tokens sql ts ->
  exists ts', tokens sql' ts' /\ Forall2 (fun t t' => t_code t = t_code t' /\ t_pos t = t_pos t' /\ t_len t = t_len t' /\ val_case (t_val t) (t_val t')) ts ts'.
Proof.
  intros sql sql' ts E T. destruct (tokens_case E T) as (ts' & T' & F). exists ts'. split; [exact T'|]. clear -F. induction F as [|t t' ts ts' (A & B & C & D) F IH]; constructor; auto.
Qed.
(** Changing the letter case of one keyword changes nothing at all. *)
Theorem C09_keyword_case : forall a k k' b l r, ~ In NUL (a ++ k ++ b) -> boundary a (k ++ b) l -> 5 <= r <= 170 -> best (active 1) (k ++ b) r (List.length k) -> k <> [] -> same_case k k' ->
  forall l', cores (a ++ k ++ b) l' <-> cores (a ++ k' ++ b) l'.
Proof.
  intros a k k' b l r N (buf & S) R B NE E.
  assert (EB : same_case (k ++ b) (k' ++ b)) by (apply same_case_app; [exact E|apply same_case_refl]).
  assert (N' : ~ In NUL (a ++ k' ++ b)) by (eapply NUL_case; [|exact N]; apply same_case_app; [apply same_case_refl|exact EB]).
  destruct (@token_rules_all r ltac:(lia)) as (c & TR & C).
  assert (ONE : forall w, same_case k w -> scans 1 buf (w ++ b) [(c, TVNone)] 1 buf b).
  { intros w EW. change 1 with (lx_start (mkLex 1 buf (user_action w pos0))) at 2. change buf with (lx_buf (mkLex 1 buf (user_action w pos0))) at 2.
    apply scans_one with (r := r); [exact ST1|intros ->; destruct k; [congruence|discriminate]| |lia|apply (@run_token r w (mkLex 1 buf pos0) c); [lia|exact TR]|lia].
    rewrite <- (same_case_length EW). eapply best_lower; [|exact B]. apply same_case_app; [exact EW|apply same_case_refl]. }
  pose proof (scans_trans S (ONE k (same_case_refl k))) as S1. pose proof (scans_trans (@scans_case _ _ _ _ _ _ _ S a _ eq_refl EB) (ONE k' E)) as S2.
  intro l'. rewrite <- (lexes_cores _ _ N), <- (lexes_cores _ _ N'). split; intro L.
  - destruct (scans_cut _ _ _ _ _ _ _ S1 _ L) as (l3 & -> & L3). exact (scans_lexes S2 L3).
  - destruct (scans_cut _ _ _ _ _ _ _ S2 _ L) as (l3 & -> & L3). exact (scans_lexes S1 L3).
Qed.

Lemma bytes_eqb_eq a : forall b, bytes_eqb a b = true -> a = b.
Proof. induction a as [|c a IH]; intros [|d b] E; cbn [bytes_eqb] in E; try discriminate E; [reflexivity|]. apply andb_prop in E as [E1 E2]. apply byte_eqb_eq in E1. subst d. f_equal. apply IH. exact E2. Qed.
Lemma keyword_find r k : existsb (fun p => (fst p =? r) && bytes_eqb (snd p) k) keyword_list = true -> In (r, k) keyword_list.
Proof. rewrite existsb_exists. intros ([r' k'] & I & E). cbn [fst snd] in E. apply andb_prop in E as [E1 E2]. apply Z.eqb_eq in E1. apply bytes_eqb_eq in E2. rewrite <- E1, <- E2. exact I. Qed.
Lemma select_keyword : In (134, la "SELECT") keyword_list. Proof. apply keyword_find. vm_compute. reflexivity. Qed.
(** The tables of the scanner agree with the specification of the keywords. *)
Lemma keyword_rule k c : In (k, c) keywords -> exists r, In (r, k) keyword_list /\ token_rule r = Some c.
Proof.
  intro I. assert (A : forallb (fun p => existsb (fun q => if bytes_eqb (snd q) (fst p) then opt_eqb (token_rule (fst q)) (Some (snd p)) else false) keyword_list) keywords = true) by (vm_compute; reflexivity).
  rewrite forallb_forall in A. specialize (A _ I). cbn [fst snd] in A. apply existsb_exists in A as ([r k'] & J & E). cbn [fst snd] in E.
  destruct (bytes_eqb k' k) eqn:EK; [|discriminate]. apply bytes_eqb_eq in EK. subst k'. exists r. split; [exact J|]. destruct (token_rule r) as [c'|]; [|discriminate]. cbn [opt_eqb] in E. f_equal. lia.
Qed.
Lemma keyword_In k c : existsb (fun p => bytes_eqb (fst p) k && (snd p =? c)) keywords = true -> In (k, c) keywords.
Proof. rewrite existsb_exists. intros ([k' c'] & I & E). cbn [fst snd] in E. apply andb_prop in E as [E1 E2]. apply bytes_eqb_eq in E1. apply Z.eqb_eq in E2. subst. exact I. Qed.
(** A keyword in any letter case that is not followed by a letter, digit or underscore is read as the token of its name, wherever a token may begin. *)
Theorem C09_keyword_tokens : forall a l k c w rest, boundary a (w ++ rest) l -> In (k, c) keywords -> same_case k w -> starts is_word rest = false -> boundary (a ++ w) rest (l ++ [(c, TVNone)]).
Proof.
  intros a l k c w rest [buf S] I E SR. apply keyword_rule in I as (r & I & TR). exists buf. rewrite <- app_assoc.
  eapply scans_trans; [exact S|]. eapply scan_keyword; eassumption.
Qed.
Lemma scan_select rest : starts is_word rest = false -> scans 1 [] (la "SELECT" ++ rest) [(TOK_SELECT, TVNone)] 1 [] rest.
Proof. intro S. apply (@scan_keyword [] 134 (la "SELECT")); [apply select_keyword|reflexivity|vm_compute; reflexivity|exact S]. Qed.
Lemma select_boundary rest : starts is_word rest = false -> boundary (la "SELECT") rest [(TOK_SELECT, TVNone)].
Proof. intro S. exists []. apply scan_select; exact S. Qed.
Example C09_example : boundary (la "SELECT ") (la "from" ++ la " t") [(TOK_SELECT, TVNone)] /\ (exists r, 5 <= r <= 170 /\ best (active 1) (la "from" ++ la " t") r 4) /\ same_case (la "from") (la "FrOm").
Proof.
  split; [|split; [|reflexivity]].
  - exists []. change (la "SELECT " ++ la "from" ++ la " t") with (la "SELECT" ++ la " " ++ la "from t"). change ([(TOK_SELECT, TVNone)]) with ([(TOK_SELECT, TVNone)] ++ []).
    eapply scans_trans; [apply scan_select; reflexivity|]. apply scan_blank; [split; [discriminate|reflexivity]|reflexivity].
  - destruct (@lex_step_total (lex_init []) (la "from t")) as [[K _]|(r & n & B & L & R & E)]; [left; reflexivity|vm_compute; intuition discriminate|discriminate K|].
    assert (F : lex_step (lex_init []) (la "from t") = StepTok TOK_FROM TVNone (mkLex 1 [] (user_action (la "from") pos0)) (la " t")) by (vm_compute; reflexivity).
    rewrite E in F.
    assert (n = 4)%nat. { destruct (run_rule r (firstn n (la "from t")) (lex_init [])) as [|c v st']; [discriminate F|]. assert (G : skipn n (la "from t") = la " t") by congruence. clear F. rename G into F. apply (f_equal (@List.length ascii)) in F. rewrite skipn_length in F. change (6 - n = 2)%nat in F. lia. }
    subst n. exists r. split; [|exact B].
    pose proof (best_first (or_introl eq_refl) B) as F1. assert (F2 : exists q, first_nullable (after (active 1) (la "from")) = Some q /\ 5 <= q <= 170) by (eexists; split; [vm_compute; reflexivity|lia]). destruct F2 as (q & F2 & Q).
    change (firstn 4 (la "from t")) with (la "from") in F1. cbn [lx_start lex_init] in F1. rewrite F2 in F1. injection F1 as <-. exact Q.
Qed.

Example C09_keyword_tokens_example : boundary [] (la "sElEcT" ++ la "*") [] /\ In (la "SELECT", TOK_SELECT) keywords /\ same_case (la "SELECT") (la "sElEcT") /\ starts is_word (la "*") = false.
Proof. split; [|split; [|split; reflexivity]]; [exists []; constructor; left; reflexivity|apply keyword_In; vm_compute; reflexivity]. Qed.

(** ** C10: layout *)
Theorem C10_layout : forall a ws ws' b l, ~ In NUL (a ++ b) -> blank ws -> blank ws' -> boundary a (ws ++ b) l ->
  forall l', cores (a ++ ws ++ b) l' <-> cores (a ++ ws' ++ b) l'.
Proof.
  intros a ws ws' b l N W W' (buf & S). apply NUL_app in N as [NA NB].
  assert (NW : forall w, blank w -> ~ In NUL w) by (intros w [_ F] I; pose proof (proj1 (forallb_forall _ _) F _ I) as K; discriminate K).
  assert (N1 : forall w, blank w -> ~ In NUL (a ++ w ++ b)) by (intros w BW; rewrite !NUL_app; auto).
  pose proof (scans_blank S (a := a) (ws := ws) (ws' := ws') (b := b) W W' eq_refl eq_refl eq_refl NA) as S'.
  (* both continue with the same text: all leading blanks are skipped *)
  assert (SKIP : forall w, blank w -> exists b0 b1, b = b0 ++ b1 /\ forallb is_blank b0 = true /\ starts is_blank b1 = false).
  { intros _ _. clear. induction b as [|c b IH]; [exists [], []; auto|]. destruct (is_blank c) eqn:E; [|exists [], (c :: b); auto]. destruct IH as (b0 & b1 & -> & F & G). exists (c :: b0), b1. cbn [app forallb]. rewrite E. auto. }
  destruct (SKIP ws W) as (b0 & b1 & -> & F & G).
  assert (TO : forall w, blank w -> scans 1 buf (w ++ b0 ++ b1) [] 1 buf b1).
  { intros w [NE FW]. rewrite app_assoc. apply scan_blank; [|exact G]. split; [destruct w; [congruence|discriminate]|]. rewrite forallb_app, FW, F. reflexivity. }
  pose proof (scans_trans S (TO _ W)) as S1. pose proof (scans_trans S' (TO _ W')) as S2.
  intro l'. rewrite <- (lexes_cores _ _ (N1 _ W)), <- (lexes_cores _ _ (N1 _ W')). split; intro L.
  - destruct (scans_cut _ _ _ _ _ _ _ S1 _ L) as (l3 & -> & L3). exact (scans_lexes S2 L3).
  - destruct (scans_cut _ _ _ _ _ _ _ S2 _ L) as (l3 & -> & L3). exact (scans_lexes S1 L3).
Qed.

Example C10_example : boundary (la "SELECT") (la " " ++ la "1") [(TOK_SELECT, TVNone)] /\ blank (la " ") /\ blank [LF; TAB; SP].
Proof. split; [apply select_boundary; reflexivity|]. split; (split; [discriminate|reflexivity]). Qed.

(** ** C11: comments *)
(** The English property fails: a comment swallows the following line if that line is indented or empty, or if the comment consists of
    blanks; and it may join the words around the line end to one token. *)
Definition nl : bytes := [LF].
Theorem C11_refuted : cores (la "--x" ++ nl ++ la " SELECT 1") [(0, TVNone)] /\ cores (la "-- " ++ nl ++ la "SELECT 1") [(0, TVNone)] /\
  cores (la "--CURRENT" ++ nl ++ la "ROW") [(TOK_CURRENT_ROW, TVNone); (0, TVNone)] /\
  cores (la " SELECT 1") [(TOK_SELECT, TVNone); (TOK_INTVAL, TVInt 1); (0, TVNone)].
Proof. repeat split; (eexists; split; [vm_compute; reflexivity|vm_compute; reflexivity]). Qed.
(** What holds: a comment that contains a non-blank character (or nothing), does not end in the first half of CURRENT ROW or CHARACTER VARYING,
    and whose following line starts with a non-blank character is skipped up to and including the line end. *)
Theorem C11_comment_partial : forall a c b l, ~ In NUL (a ++ la "--" ++ c ++ nl ++ b) -> ~ In LF c -> (c = [] \/ existsb (fun x => negb (is_blank x)) c = true) -> starts is_blank b = false -> ~ is_keyword_pair c b ->
  boundary a (la "--" ++ c ++ nl ++ b) l -> forall l', lexes 1 [] b l' <-> cores (a ++ la "--" ++ c ++ nl ++ b) (l ++ l').
Proof.
  intros a c b l N NL NB SB KP (buf & S) l'. pose proof N as N0. rewrite !NUL_app in N0. destruct N0 as (NA & _ & NC & _ & NBB).
  assert (SC : scans 5 buf (c ++ nl ++ b) [] 5 buf (nl ++ b)).
  { destruct c as [|x c]; [cbn [app]; apply sc_refl; exact ST5|]. destruct NB as [NB|NB]; [discriminate|]. apply scan_comment_text; auto; [discriminate| |].
    - apply forallb_forall. intros y I. unfold not_LF. destruct (byte_eqb y LF) eqn:E; [|reflexivity]. apply byte_eqb_eq in E. subst y. contradiction.
    - right. split; [exact NB|]. exists b. split; [reflexivity|exact KP]. }
  pose proof (scans_trans (scan_dashes buf (c ++ nl ++ b)) (scans_trans SC (@scan_line_end buf b SB NBB))) as S1. cbn [app] in S1.
  pose proof (scans_trans S S1) as S2. rewrite app_nil_r in S2. rewrite <- (lexes_cores _ _ N). split; intro L.
  - apply (scans_lexes S2). eapply lexes_any; [lia|exact L|exact NBB].
  - destruct (scans_cut _ _ _ _ _ _ _ S2 _ L) as (l3 & E & L3). apply app_inv_head in E. subst l3. eapply lexes_any; [lia|exact L3|exact NBB].
Qed.
Example C11_example : exists l, boundary (la "SELECT 1") (la "--" ++ la " note" ++ nl ++ la ", 2") l /\ ~ is_keyword_pair (la " note") (la ", 2").
Proof.
  exists [(TOK_SELECT, TVNone); (TOK_INTVAL, TVInt 1)]. split.
  - exists []. change ([(TOK_SELECT, TVNone); (TOK_INTVAL, TVInt 1)]) with ([(TOK_SELECT, TVNone)] ++ [] ++ [(TOK_INTVAL, TVInt 1)]).
    change (la "SELECT 1" ++ la "--" ++ la " note" ++ nl ++ la ", 2") with (la "SELECT" ++ la " " ++ la "1" ++ la "--" ++ la " note" ++ nl ++ la ", 2").
    eapply scans_trans; [apply scan_select; reflexivity|].
    eapply scans_trans; [apply scan_blank; [split; [discriminate|reflexivity]|reflexivity]|]. apply scan_integer; vm_compute; reflexivity.
  - intros (bl & u & x & tail & E & _ & _ & [[S1 _]|[S1 _]]); destruct u as [|d u]; try discriminate S1; cbn [app la] in E; injection E as <- _; unfold same_case in S1; discriminate S1.
Qed.

(** ** C12: string literals *)
Theorem C12_string_literal : forall w rest, ~ In NUL w -> starts (fun c => byte_eqb c QUOTE) rest = false ->
  reads 1 (QUOTE :: escape w ++ QUOTE :: rest) [(TOK_STRING, TVStr w)] 1 rest.
Proof. intros w rest N S buf. exists w. apply scan_string; assumption. Qed.
(** [escape] doubles quotes. *)
Example C12_example : escape (la "it's") = la "it''s" /\ cores (la "'it''s'") [(TOK_STRING, TVStr (la "it's")); (0, TVNone)].
Proof. split; [reflexivity|]. eexists. split; vm_compute; reflexivity. Qed.

(** ** C13: identifiers *)
(** The English property fails for an identifier CURRENT (CHARACTER) that is followed by a word beginning with ROW (VARYING): the word is split. *)
Theorem C13_refuted : cores (la "current rowid") [(TOK_CURRENT_ROW, TVNone); (TOK_IDENTIFIER, TVStr (la "id")); (0, TVNone)].
Proof. eexists. split; vm_compute; reflexivity. Qed.
Theorem C13_identifier_partial : forall w rest, word w = true -> ~ is_keyword w -> starts is_word rest = false -> ~ joined w rest ->
  reads 1 (w ++ rest) [(TOK_IDENTIFIER, TVStr w)] 1 rest.
Proof. intros w rest W K S J buf. exists buf. apply scan_identifier; assumption. Qed.
Theorem C13_quoted_identifier : forall w rest, w <> [] -> ~ In NUL w -> ~ In DQUOTE w -> ~ In LF w ->
  reads 1 (DQUOTE :: w ++ DQUOTE :: rest) [(TOK_IDENTIFIER, TVStr w)] 1 rest.
Proof.
  intros w rest NE N1 N2 N3 buf. exists buf. apply scan_quoted; [exact NE|]. apply forallb_forall. intros c I. unfold in_quotes.
  destruct (byte_eqb c NUL) eqn:E1; [apply byte_eqb_eq in E1; subst c; contradiction|]. destruct (byte_eqb c DQUOTE) eqn:E2; [apply byte_eqb_eq in E2; subst c; contradiction|].
  destruct (byte_eqb c LF) eqn:E3; [apply byte_eqb_eq in E3; subst c; contradiction|]. reflexivity.
Qed.
Definition not_keyword (w : bytes) : bool := match first_nullable (after (active 1) w) with Some r => 168 <? r | None => true end.
Lemma not_keyword_ok w : not_keyword w = true -> ~ is_keyword w.
Proof.
  intros E (r & x & R & I & M). assert (MM : matched (active 1) r w) by (apply rule_matches_active; exists Normal, x; auto). unfold not_keyword in E.
  rewrite <- (app_nil_r w) in MM. rewrite <- after_ok in MM. pose proof (first_nullable_ok (after (active 1) w)) as K. destruct (first_nullable (after (active 1) w)) as [r0|]; [|exact (K _ MM)].
  destruct K as [_ K]. assert (SO : sorted (after (active 1) w)). { clear. generalize (active_sorted ST1). generalize (active 1). induction w as [|c w IH]; intros l S; [exact S|]. cbn [after]. apply IH, steps_sorted, S. }
  specialize (K SO _ MM). lia.
Qed.
Example C13_example : word (la "rows_2") = true /\ ~ is_keyword (la "rows_2") /\ starts is_word (la ", b") = false /\ ~ joined (la "rows_2") (la ", b").
Proof.
  split; [reflexivity|]. split; [apply not_keyword_ok; vm_compute; reflexivity|]. split; [reflexivity|]. intros (bl & x & tail & E & [NE B] & _). destruct bl as [|c bl]; [congruence|]. injection E as <- _. discriminate B.
Qed.

(** ** C14: integer literals *)
(** The English property fails for leading zeros: the literal is read as octal. *)
Theorem C14_refuted : cores (la "010") [(TOK_INTVAL, TVInt 8); (0, TVNone)] /\ cores (la "09") [(TOK_INTVAL, TVInt 0); (0, TVNone)].
Proof. split; (eexists; split; vm_compute; reflexivity). Qed.
Theorem C14_integer_value_partial : forall w rest, digits w = true -> (starts (fun c => byte_eqb c "0"%char) w = false \/ w = la "0") -> starts digit_or_dot rest = false ->
  decimal w <= 9223372036854775807 -> reads 1 (w ++ rest) [(TOK_INTVAL, TVInt (decimal w))] 1 rest.
Proof.
  intros w rest W L S V buf. exists buf. apply scan_integer; [exact W|exact S|]. rewrite (strtoll0_decimal W L). unfold LLONG_MAX. replace (decimal w <=? 9223372036854775807) with true by lia. reflexivity.
Qed.
(** Tokens outside the grammar make every input invalid. *)
Lemma no_undef : forallb (fun p => forallb (fun X => negb (N.eqb X 2)) (snd (snd p))) GrammarDef.grammar = true.
Proof. vm_compute. reflexivity. Qed.
Lemma derives_known X t : derives X t -> X <> 2%N -> forall k, In k (yield t) -> sym_of k <> 2%N.
Proof.
  intro D. induction D using derives_mind with (P0 := fun Xs ts _ => forallb (fun X => negb (N.eqb X 2)) Xs = true -> forall k, In k (yields ts) -> sym_of k <> 2%N).
  - intros NE k I. cbn [yield] in I. destruct I as [<-|[]]. exact NE.
  - intros _ k I. apply (IHD (proj1 (forallb_forall _ _) no_undef _ (production_In e)) k I).
  - intros _ k [].
  - intros F k I. cbn [forallb] in F. apply andb_prop in F as [F1 F2]. cbn [yields flat_map] in I. apply in_app_or in I as [I|I]; [apply IHD; auto; lia|apply IHD0; auto].
Qed.
Lemma valid_known buf0 sql ts r e : tokens sql ts -> parse buf0 sql fresh_env = PRet r e -> e_valid e = true -> forall k, In k ts -> sym_of k <> 2%N.
Proof.
  intros T P V k I. destruct (parse_sound T P) as (_ & lost & _ & A & _). destruct (A V) as (tl & semi & eof & D & Y & K & _).
  assert (NI : S_input <> 2%N) by discriminate. pose proof (derives_known _ _ D NI) as DK. cbn [yield flat_map] in DK. rewrite app_nil_r in DK. rewrite <- Y in I. rewrite app_assoc in I. apply in_app_or in I as [I|[<-|[]]]; [exact (DK _ I)|rewrite K; discriminate].
Qed.
Theorem C14_out_of_range : forall a w rest l buf0 r e, ~ In NUL (a ++ w ++ rest) -> digits w = true -> starts (fun c => byte_eqb c "0"%char) w = false -> starts digit_or_dot rest = false ->
  9223372036854775807 < decimal w -> boundary a (w ++ rest) l -> parse buf0 (a ++ w ++ rest) fresh_env = PRet r e -> e_valid e = false.
Proof.
  intros a w rest l buf0 r e N W L S V (buf & SC) P. destruct (e_valid e) eqn:EV; [exfalso|reflexivity]. destruct (tokens_total (a ++ w ++ rest)) as (ts & T & _).
  assert (OR : strtoll0 w = None) by (rewrite (strtoll0_decimal W (or_introl L)); unfold LLONG_MAX; replace (decimal w <=? 9223372036854775807) with false by lia; reflexivity).
  pose proof (scans_trans SC (@scan_integer_range buf w rest W S OR)) as S1. pose proof (tokens_lexes T) as LX. rewrite (c_string_id _ N) in LX. destruct (scans_cut _ _ _ _ _ _ _ S1 _ LX) as (l3 & E & _).
  assert (I : In (64, TVNone) (map core ts)) by (rewrite E; apply in_or_app; left; apply in_or_app; right; now left). apply in_map_iff in I as (k & EK & IK).
  apply (valid_known _ _ _ _ _ T P EV k IK). unfold core in EK. injection EK as EK _. unfold sym_of. rewrite EK. vm_compute. reflexivity.
Qed.
Example C14_example : digits (la "9223372036854775808") = true /\ 9223372036854775807 < decimal (la "9223372036854775808") /\ boundary (la "SELECT ") (la "9223372036854775808" ++ la " FROM t") [(TOK_SELECT, TVNone)].
Proof.
  split; [reflexivity|]. split; [vm_compute; reflexivity|]. exists []. change (la "SELECT " ++ la "9223372036854775808" ++ la " FROM t") with (la "SELECT" ++ la " " ++ la "9223372036854775808 FROM t").
  change ([(TOK_SELECT, TVNone)]) with ([(TOK_SELECT, TVNone)] ++ []). eapply scans_trans; [apply scan_select; reflexivity|].
  apply scan_blank; [split; [discriminate|reflexivity]|reflexivity].
Qed.

(** ** C15: the most negative integer *)
Theorem C15_min_integer_partial : forall rest, reads 1 (la "-9223372036854775808" ++ rest) [(TOK_INTVAL, TVInt (-9223372036854775808))] 1 rest.
Proof. intros rest buf. exists buf. apply scan_min. Qed.
(** "without changing how other inputs are read" fails: subtraction of this number is a syntax error, other numbers can be subtracted; and
    a longer number is torn apart. *)
Theorem C15_refuted : forall buf0, (exists r e, parse buf0 (la "SELECT 5-9223372036854775808") fresh_env = PRet r e /\ e_valid e = false) /\
  (exists r e, parse buf0 (la "SELECT 5-9223372036854775807") fresh_env = PRet r e /\ e_valid e = true) /\
  cores (la "-92233720368547758080") [(TOK_INTVAL, TVInt (-9223372036854775808)); (TOK_INTVAL, TVInt 0); (0, TVNone)].
Proof.
  intro. unfold parse. rewrite !lex_all_buf. split; [|split].
  - eexists _, _. split; [vm_compute; reflexivity|reflexivity].
  - eexists _, _. split; [vm_compute; reflexivity|reflexivity].
  - eexists. split; vm_compute; reflexivity.
Qed.

(** ** C16: how much of the input is read *)
(** Bytes at which no token can begin. *)
Definition unknown (c : ascii) : bool := negb (is_alpha c || is_digit c || is_blank c || byte_eqb c QUOTE || existsb (byte_eqb c) (la "-+*/(){},.;<>=^%:?[]|")).
Theorem C16_refuted : forall buf0, exists r e, parse buf0 (la "SELECT 1 # , FROM") fresh_env = PRet r e /\ e_valid e = true /\ List.length (e_stmts e) = 1%nat.
Proof. intro. unfold parse. rewrite lex_all_buf. eexists _, _. split; [vm_compute; reflexivity|split; reflexivity]. Qed.
Definition is188 (l : rules) (u : bool) : bool := implb (opt_eqb (first_nullable l) (Some 188)) u.
Lemma unknown_1 : forallb (fun z => is188 (steps (byte z) (active 1)) (unknown (byte z))) (zrange 255 1) = true. Proof. vm_cast_no_check (eq_refl true). Qed.
Lemma unknown_3 : forallb (fun z => is188 (steps (byte z) (active 3)) (unknown (byte z))) (zrange 255 1) = true. Proof. vm_cast_no_check (eq_refl true). Qed.
Lemma unknown_5 : forallb (fun z => is188 (steps (byte z) (active 5)) (unknown (byte z))) (zrange 255 1) = true. Proof. vm_cast_no_check (eq_refl true). Qed.
Lemma rx_188 : rule_rx 188 = Any. Proof. vm_compute. reflexivity. Qed.
Lemma is188_ok l u : is188 l u = true -> first_nullable l = Some 188 -> u = true.
Proof. unfold is188. intros A B. rewrite B in A. exact A. Qed.
Lemma stop_unknown s rest n : is_start s -> ~ In NUL rest -> best (active s) rest 188 n -> exists c rest', rest = c :: rest' /\ unknown c = true.
Proof.
  intros ST N B. pose proof (best_first ST B) as F. destruct B as (L & M & _). apply matched_rule in M as [M _]. rewrite rx_188 in M.
  destruct (firstn n rest) as [|c w] eqn:FN; [inversion M|]. inversion M as [|n0 l0 c0 IC EQ| | | | |]; subst. rewrite after_1 in F.
  destruct rest as [|d rest]; [destruct n; discriminate FN|]. destruct n; [discriminate FN|]. cbn [firstn] in FN. injection FN as -> _. exists c, rest. split; [reflexivity|].
  assert (NC : c <> NUL) by (intros ->; apply N; now left).
  destruct ST as [->|[->| ->]].
  - exact (is188_ok _ _ (@all_bytes (fun c => is188 (steps c (active 1)) (unknown c)) unknown_1 c NC) F).
  - exact (is188_ok _ _ (@all_bytes (fun c => is188 (steps c (active 3)) (unknown c)) unknown_3 c NC) F).
  - exact (is188_ok _ _ (@all_bytes (fun c => is188 (steps c (active 5)) (unknown c)) unknown_5 c NC) F).
Qed.
(** The scanner stops at the end of the input (behind a complete token, inside a comment, or inside an unterminated string literal), or in front of a byte at which no token can begin. *)
Theorem C16_reading_stops_partial : forall sql ts, tokens sql ts -> exists l s buf rest, scans 1 [] (c_string sql) l s buf rest /\ map core ts = l ++ [(0, TVNone)] /\
  (rest = [] \/ exists c rest', rest = c :: rest' /\ unknown c = true).
Proof.
  assert (G : forall s buf text l, lexes s buf text l -> ~ In NUL text -> exists l0 s' buf' rest, scans s buf text l0 s' buf' rest /\ l = l0 ++ [(0, TVNone)] /\ (rest = [] \/ exists c rest', rest = c :: rest' /\ unknown c = true)).
  2:{ intros sql ts T. apply (G _ _ _ _ (tokens_lexes T)). apply c_string_NUL. }
  intros s buf text l T. induction T as [s buf S|s buf rest r n st' l S NE B R E L IH|s buf rest r n c v st' l S NE B R E C L IH|s buf rest r n c v st' S NE B R E C]; intro N.
  - exists [], s, buf, []. split; [apply sc_refl; exact S|]. split; [reflexivity|]. now left.
  - destruct (IH (skipn_NUL N)) as (l0 & s' & buf' & rest' & SC & EL & ST). exists l0, s', buf', rest'. split; [|auto]. eapply sc_skip with (r := r) (n := n); eauto.
    destruct (Nat.eq_dec n 0) as [->|]; [exfalso|lia]. destruct B as (_ & M & F). destruct rest as [|c rest]; [congruence|]. destruct (@active_any s c S) as [r' M']; [intros ->; apply N; now left|]. destruct (F r' 1%nat) as [K _]; [cbn; lia|exact M'|lia].
  - destruct (IH (skipn_NUL N)) as (l0 & s' & buf' & rest' & SC & EL & ST). exists ((c, v) :: l0), s', buf', rest'. split; [|split; [cbn [app]; f_equal; exact EL|exact ST]]. eapply sc_tok with (r := r) (n := n); eauto.
    destruct (Nat.eq_dec n 0) as [->|]; [exfalso|lia]. destruct B as (_ & M & F). destruct rest as [|c0 rest]; [congruence|]. destruct (@active_any s c0 S) as [r' M']; [intros ->; apply N; now left|]. destruct (F r' 1%nat) as [K _]; [cbn; lia|exact M'|lia].
  - pose proof B as (_ & M & _). pose proof (@run_rule_code s r _ (mkLex s buf pos0) R M) as RC. rewrite E in RC. destruct RC as [RC|(-> & -> & ->)]; [lia|].
    exists [], s, buf, rest. split; [apply sc_refl; exact S|]. split; [reflexivity|]. right. eapply stop_unknown; eassumption.
Qed.
(** In particular everything is read if the input consists of letters, digits, blanks and operator characters. *)
Theorem C16_plain_input : forall sql ts, forallb (fun c => negb (unknown c)) sql = true -> tokens sql ts -> exists l s buf, scans 1 [] sql l s buf [] /\ map core ts = l ++ [(0, TVNone)].
Proof.
  intros sql ts F T. assert (N : ~ In NUL sql) by (intro I; pose proof (proj1 (forallb_forall _ _) F _ I) as K; discriminate K).
  destruct (C16_reading_stops_partial _ _ T) as (l & s & buf & rest & S & E & H). rewrite (c_string_id _ N) in S. exists l, s, buf. split; [|exact E]. destruct H as [->|(c & rest' & -> & U)]; [exact S|exfalso].
  destruct (scans_suffix S) as [a EA]. rewrite EA, forallb_app in F. apply andb_prop in F as [_ F]. cbn [forallb] in F. rewrite U in F. discriminate F.
Qed.
