(** The scanner as a relation between inputs and sequences of (code, value), free of positions.  No code of /repo. *)
From Verif Require Export Base FlexTables TokenCodes LexRules LexModel Regex LexSpec LexProof LexMatch LexTotal LexPos ParseProof.
From Coq Require Import ZifyBool ZifyNat ZifyN.
Local Open Scope Z_scope.
Set Implicit Arguments.
Unset Strict Implicit.

Definition core (t : token) : Z * tokval := (t_code t, t_val t).
(** [lexes s buf rest l]: in start condition [s], with string buffer [buf], the text [rest] is scanned as [l]; each step takes the
    longest, then first, matching rule. *)
Inductive lexes : Z -> bytes -> bytes -> list (Z * tokval) -> Prop :=
| lx_end : forall s buf, is_start s -> lexes s buf [] [(0, TVNone)]
| lx_skip : forall s buf rest r n st' l, is_start s -> rest <> [] -> best (active s) rest r n -> 1 <= r <= 189 ->
    run_rule r (firstn n rest) (mkLex s buf pos0) = Skip st' -> lexes (lx_start st') (lx_buf st') (skipn n rest) l -> lexes s buf rest l
| lx_tok : forall s buf rest r n c v st' l, is_start s -> rest <> [] -> best (active s) rest r n -> 1 <= r <= 189 ->
    run_rule r (firstn n rest) (mkLex s buf pos0) = Ret c v st' -> 0 < c -> lexes (lx_start st') (lx_buf st') (skipn n rest) l -> lexes s buf rest ((c, v) :: l)
| lx_stop : forall s buf rest r n c v st', is_start s -> rest <> [] -> best (active s) rest r n -> 1 <= r <= 189 ->
    run_rule r (firstn n rest) (mkLex s buf pos0) = Ret c v st' -> c <= 0 -> lexes s buf rest [(c, v)].

Lemma best_unique l rest r n r' n' : best l rest r n -> best l rest r' n' -> r = r' /\ n = n'.
Proof. intros (A1 & A2 & A3) (B1 & B2 & B3). destruct (A3 _ _ B1 B2), (B3 _ _ A1 A2). assert (n = n') by lia. subst. split; [|reflexivity]. assert (r <= r') by auto. assert (r' <= r) by auto. lia. Qed.
Lemma run_rule_pos r t s buf p q :
  match run_rule r t (mkLex s buf p), run_rule r t (mkLex s buf q) with
  | Skip a, Skip b => lx_start a = lx_start b /\ lx_buf a = lx_buf b
  | Ret c v a, Ret c' v' b => c = c' /\ v = v' /\ lx_start a = lx_start b /\ lx_buf a = lx_buf b
  | _, _ => False
  end.
Proof.
  unfold run_rule. cbn [lx_start lx_buf lx_pos]. rule_cases; cbn [lx_start lx_buf lx_pos]; auto.
  - destruct (strtoll0 t); auto.
  - destruct (token_rule r); auto.
Qed.
Lemma lexes_fun s buf rest l : lexes s buf rest l -> forall l', lexes s buf rest l' -> l = l'.
Proof.
  induction 1 as [s buf S|s buf rest r n st' l S NE B R E L IH|s buf rest r n c v st' l S NE B R E C L IH|s buf rest r n c v st' S NE B R E C]; intros l' H;
    inversion H as [s2 buf2 S2|s2 buf2 rest2 r2 n2 st2 l2 S2 NE2 B2 R2 E2 L2|s2 buf2 rest2 r2 n2 c2 v2 st2 l2 S2 NE2 B2 R2 E2 C2 L2|s2 buf2 rest2 r2 n2 c2 v2 st2 S2 NE2 B2 R2 E2 C2]; subst; try congruence;
    destruct (best_unique B B2) as [<- <-]; rewrite E in E2; try discriminate E2; try (injection E2 as <- <- <-); try (injection E2 as <-); try lia; auto.
  f_equal. auto.
Qed.
Lemma lex_from_lexes : forall st rest, is_start (lx_start st) -> ~ In NUL rest -> forall len0 ts, lex_from st len0 rest = Some ts -> lexes (lx_start st) (lx_buf st) rest (map core ts).
Proof.
  intros st rest S0 N0. refine (@lex_ind (fun st rest => forall len0 ts, lex_from st len0 rest = Some ts -> lexes (lx_start st) (lx_buf st) rest (map core ts)) _ st rest S0 N0).
  clear. intros st rest ST N IH len0 ts EQ. rewrite (lex_from_eq len0 ST N) in EQ.
  destruct (lex_step_total ST N) as [[-> E]|(r & n & B & L1 & R & E)]; rewrite E in EQ; [cbn in EQ; injection EQ as <-; constructor; exact ST|].
  assert (NE : rest <> []) by (intros ->; cbn in L1; lia). pose proof (run_rule_ok r (firstn n rest) ST) as P.
  pose proof (run_rule_pos r (firstn n rest) (lx_start st) (lx_buf st) (lx_pos st) pos0) as Q. destruct st as [s buf p]. cbn [lx_start lx_buf lx_pos] in *.
  destruct (run_rule r (firstn n rest) (mkLex s buf p)) as [st1|c v st1], (run_rule r (firstn n rest) (mkLex s buf pos0)) as [st2|c2 v2 st2] eqn:E2; try contradiction.
  - destruct Q as [Q1 Q2]. eapply lx_skip; try eassumption. rewrite <- Q1, <- Q2. exact (IH st1 n (proj1 L1) (proj1 P) NE len0 ts EQ).
  - destruct Q as (<- & <- & Q1 & Q2). cbn zeta in EQ. destruct (c <=? 0) eqn:C.
    + injection EQ as <-. eapply lx_stop; try eassumption. apply Z.leb_le. exact C.
    + destruct (lex_from st1 _ _) as [ts'|] eqn:ET; [|discriminate]. cbn [obind] in EQ. injection EQ as <-. cbn [map core t_code t_val].
      eapply lx_tok; try eassumption; [apply Z.leb_gt; exact C|]. rewrite <- Q1, <- Q2. exact (IH st1 n (proj1 L1) (proj1 P) NE _ _ ET).
Qed.
(** The tokens of an input are given by the relation. *)
Theorem tokens_lexes sql ts : tokens sql ts -> lexes 1 [] (c_string sql) (map core ts).
Proof. intro T. apply (@lex_from_lexes (lex_init []) (c_string sql)) with (len0 := 0); [left; reflexivity|apply c_string_NUL|exact T]. Qed.
Theorem lexes_tokens sql l : lexes 1 [] (c_string sql) l -> exists ts, tokens sql ts /\ map core ts = l.
Proof. intro H. destruct (tokens_total sql) as (ts & T & _). exists ts. split; [exact T|]. eapply lexes_fun; [apply tokens_lexes; exact T|exact H]. Qed.
(** The buffer only matters inside a string literal. *)
Lemma lexes_total s buf rest : is_start s -> ~ In NUL rest -> exists l, lexes s buf rest l.
Proof.
  intros S N. destruct (@lex_from_total (mkLex s buf pos0) rest S N 0) as (ts & E & _). exists (map core ts). apply (@lex_from_lexes (mkLex s buf pos0) rest S N _ _ E).
Qed.
Lemma lexes_buf s buf buf' rest l : s <> 3 -> ~ In NUL rest -> lexes s buf rest l -> lexes s buf' rest l.
Proof.
  intros S N H. assert (ST : is_start s) by (inversion H; assumption).
  destruct (@lex_from_total (mkLex s buf pos0) rest ST N 0) as (ts & E & _).
  destruct (@lex_from_total (mkLex s buf' pos0) rest ST N 0) as (ts' & E' & _).
  pose proof (@lex_from_lexes (mkLex s buf pos0) rest ST N _ _ E) as L. pose proof (@lex_from_lexes (mkLex s buf' pos0) rest ST N _ _ E') as L'. cbn [lx_start lx_buf] in *.
  rewrite (@lex_from_buf (mkLex s buf pos0) rest ST N (mkLex s buf' pos0) 0) in E; [|repeat split; cbn; lia]. assert (ts = ts') by congruence. subst ts'.
  rewrite (lexes_fun H L). exact L'.
Qed.

(** ** Finding the best match by derivatives *)
Fixpoint after (l : rules) (w : bytes) : rules := match w with [] => l | c :: w' => after (steps c l) w' end.
Lemma after_ok w : forall l r v, matched (after l w) r v <-> matched l r (w ++ v).
Proof. induction w as [|c w IH]; intros l r v; [reflexivity|]. cbn [after app]. rewrite IH. apply steps_ok. Qed.
Lemma after_app l u v : after l (u ++ v) = after (after l u) v.
Proof. revert l. induction u as [|c u IH]; intro l; [reflexivity|]. cbn [app after]. apply IH. Qed.
Lemma after_nil w : after [] w = [].
Proof. induction w as [|c w IH]; [reflexivity|]. exact IH. Qed.
Lemma matched_nil r w : ~ matched [] r w.
Proof. intros (x & [] & _). Qed.
Lemma firstn_split A (w rest : list A) n : (List.length w <= n)%nat -> firstn n (w ++ rest) = w ++ firstn (n - List.length w) rest.
Proof. intro L. rewrite firstn_app. f_equal. apply firstn_all2. exact L. Qed.
(** [w] is the best match of [w ++ rest] if it is matched first by [r] and nothing longer is matched. *)
Lemma best_intro l w rest r : matched l r w -> (forall r', matched l r' w -> r <= r') ->
  (forall c v u r', rest = c :: v ++ u -> ~ matched l r' (w ++ c :: v)) -> best l (w ++ rest) r (List.length w).
Proof.
  intros M F N. split; [rewrite app_length; lia|]. split; [rewrite firstn_split, Nat.sub_diag, firstn_O, app_nil_r by lia; exact M|].
  intros r' m L MM. destruct (Nat.le_gt_cases m (List.length w)) as [LE|GT].
  - split; [exact LE|]. intros ->. apply F. rewrite firstn_split, Nat.sub_diag, firstn_O, app_nil_r in MM by lia. exact MM.
  - exfalso. rewrite firstn_split in MM by lia. destruct (m - List.length w)%nat as [|k] eqn:K; [lia|]. rewrite app_length in L. destruct rest as [|c rest]; [cbn in L; lia|].
    cbn [firstn] in MM. eapply N; [|exact MM]. f_equal. symmetry. apply firstn_skipn.
Qed.
Lemma best_split l rest r n : best l rest r n -> exists w v, rest = w ++ v /\ List.length w = n /\ matched l r w /\ firstn n rest = w /\ skipn n rest = v.
Proof. intros (A & B & _). exists (firstn n rest), (skipn n rest). split; [symmetry; apply firstn_skipn|]. split; [apply firstn_length_le; exact A|]. auto. Qed.
