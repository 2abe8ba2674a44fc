(** Positions: the specification of lines and columns, and the proof that the scanner's counters are exact.  No code of /repo. *)
From Verif Require Import Base LexModel LexProof LexMatch LexTotal Driver.
From Coq Require Import ZifyBool ZifyNat ZifyN.
Local Open Scope Z_scope.
Set Implicit Arguments.
Unset Strict Implicit.

(** *** Specification *)
(** Number of line feeds in a text: the zero-based line of the position behind it. *)
Fixpoint lines (w : bytes) : Z := match w with [] => 0 | c :: w' => (if byte_eqb c LF then 1 else 0) + lines w' end.
(** Number of bytes after the last line feed: the zero-based column of the position behind the text. *)
Definition no_LF (w : bytes) : bool := forallb (fun c => negb (byte_eqb c LF)) w.
Fixpoint column (w : bytes) : Z := match w with [] => 0 | c :: w' => if no_LF w then Z.of_nat (List.length w) else column w' end.
Definition size (w : bytes) : Z := Z.of_nat (List.length w).
(** [p] describes the piece [text] of the input standing behind [before]. *)
Definition covers (p : lexpos) (before text : bytes) : Prop :=
  fl p = lines before /\ fc p = column before /\ ll p = lines (before ++ text) /\ lc p = column (before ++ text) /\ total p = size (before ++ text).
Definition total_len (ts : list token) : Z := fold_right (fun t n => t_len t + n) 0 ts.
(** *** Proofs *)
Lemma byte_eqb_eq a b : byte_eqb a b = true -> a = b.
Proof. unfold byte_eqb. intro H. apply N.eqb_eq in H. rewrite <- (ascii_N_embedding a), <- (ascii_N_embedding b). now rewrite H. Qed.
Lemma lines_app a b : lines (a ++ b) = lines a + lines b.
Proof. induction a as [|c a IH]; cbn [lines app]; lia. Qed.
Lemma no_LF_app a b : no_LF (a ++ b) = no_LF a && no_LF b.
Proof. apply forallb_app. Qed.
Lemma column_snoc a c : column (a ++ [c]) = if byte_eqb c LF then 0 else column a + 1.
Proof.
  induction a as [|d a IH]; [cbn; destruct (byte_eqb c LF); reflexivity|]. cbn [app column]. change (d :: a ++ [c]) with ((d :: a) ++ [c]). rewrite no_LF_app.
  cbn [no_LF forallb] in *. destruct (byte_eqb c LF) eqn:E; cbn [negb andb].
  - rewrite andb_false_r. exact IH.
  - rewrite andb_true_r. destruct (negb (byte_eqb d LF) && _) eqn:A; [rewrite app_length; cbn [List.length]; lia|exact IH].
Qed.
Lemma size_app a b : size (a ++ b) = size a + size b. Proof. unfold size. rewrite app_length. lia. Qed.
Lemma lines_range w : 0 <= lines w <= size w.
Proof. induction w as [|c w IH]; unfold size in *; cbn [lines List.length]; [lia|]. destruct (byte_eqb c LF); lia. Qed.
Lemma column_range w : 0 <= column w <= size w.
Proof. induction w as [|c w IH]; unfold size in *; cbn [column List.length]; [lia|]. destruct (no_LF (c :: w)); lia. Qed.
Lemma lines_column w : lines w + column w <= size w.
Proof.
  induction w as [|c w IH]; [cbn; lia|]. cbn [lines column]. unfold size in *. cbn [List.length].
  destruct (no_LF (c :: w)) eqn:N; [|destruct (byte_eqb c LF); lia]. assert (Z : forall v, no_LF v = true -> lines v = 0).
  { clear. induction v as [|c v IH]; [reflexivity|]. cbn [no_LF forallb lines]. intro H. apply andb_prop in H as [H1 H2]. specialize (IH H2). destruct (byte_eqb c LF); [discriminate|lia]. }
  specialize (Z _ N). cbn [lines] in Z. lia.
Qed.
(** The counters describe the consumed prefix [pre]. *)
Definition at_pos (p : lexpos) (pre : bytes) : Prop := ll p = lines pre /\ lc p = column pre /\ total p = size pre /\ slen p = size pre.
Lemma fold_advance text : forall p pre, at_pos p pre -> at_pos (fold_left advance1 text p) (pre ++ text) /\ fl (fold_left advance1 text p) = fl p /\ fc (fold_left advance1 text p) = fc p.
Proof.
  induction text as [|c text IH]; intros p pre A; cbn [fold_left]; [rewrite app_nil_r; auto|].
  assert (B : at_pos (advance1 p c) (pre ++ [c])).
  { destruct A as (A1 & A2 & A3 & A4). unfold at_pos, advance1. rewrite lines_app, column_snoc, size_app. cbn [lines]. change (size [c]) with 1.
    destruct (byte_eqb c LF); cbn [ll lc total slen]; repeat split; lia. }
  specialize (IH _ _ B). rewrite <- app_assoc in IH. destruct IH as (I1 & I2 & I3). rewrite I2, I3. split; [exact I1|].
  unfold advance1. destruct (byte_eqb c LF); auto.
Qed.
Lemma user_action_pos text p pre : at_pos p pre -> at_pos (user_action text p) (pre ++ text) /\ covers (user_action text p) pre text.
Proof.
  intro A. unfold user_action. destruct (@fold_advance text (mkPos (ll p) (lc p) (ll p) (lc p) (total p) (slen p)) pre) as (B1 & B2 & B3); [exact A|].
  split; [exact B1|]. unfold covers. rewrite B2, B3. cbn [fl fc]. destruct A as (A1 & A2 & _), B1 as (C1 & C2 & C3 & _). auto.
Qed.
(** Every token of the list lies where its position says, [len0] bytes having been consumed before. *)
Fixpoint located (whole : bytes) (len0 : Z) (ts : list token) : Prop :=
  match ts with
  | [] => True
  | t :: ts' => 0 <= t_len t /\ (exists before text after, whole = before ++ text ++ after /\ covers (t_pos t) before text /\ size (before ++ text) = len0 + t_len t) /\ located whole (len0 + t_len t) ts'
  end.
Lemma lex_from_located whole : forall st rest, is_start (lx_start st) -> ~ In NUL rest ->
  forall pre len0 ts, whole = pre ++ rest -> at_pos (lx_pos st) pre -> (exists b x, pre = b ++ x /\ covers (lx_pos st) b x) -> len0 <= size pre ->
  lex_from st len0 rest = Some ts -> located whole len0 ts.
Proof.
  intros st rest S0 N0. refine (@lex_ind (fun st rest => forall pre len0 ts, whole = pre ++ rest -> at_pos (lx_pos st) pre -> (exists b x, pre = b ++ x /\ covers (lx_pos st) b x) -> len0 <= size pre ->
  lex_from st len0 rest = Some ts -> located whole len0 ts) _ st rest S0 N0).
  clear st rest S0 N0. intros st rest ST N IH pre len0 ts W A C L EQ. rewrite (lex_from_eq len0 ST N) in EQ.
  destruct (lex_step_total ST N) as [[-> E]|(r & n & B & L1 & R & E)]; rewrite E in EQ.
  - cbn in EQ. injection EQ as <-. cbn [located t_len]. destruct A as (_ & _ & _ & A). destruct C as (b & x & EB & C). split; [lia|]. split; [|exact I].
    exists b, x, []. rewrite !app_nil_r in *. subst. split; [reflexivity|]. split; [exact C|]. lia.
  - assert (NE : rest <> []) by (intros ->; cbn in L1; lia).
    pose proof (run_rule_ok r (firstn n rest) ST) as P. pose proof (user_action_pos (firstn n rest) A) as (A' & C').
    assert (W' : whole = (pre ++ firstn n rest) ++ skipn n rest) by (rewrite <- app_assoc, firstn_skipn; exact W).
    assert (L' : len0 <= size (pre ++ firstn n rest)) by (rewrite size_app; unfold size in *; lia).
    destruct (run_rule r (firstn n rest) st) as [st'|c v st'].
    + destruct P as [PS PP]. apply (@IH st' n) with (pre := pre ++ firstn n rest); auto; [lia|now rewrite PP|]. rewrite PP. eauto.
    + destruct P as (PS & PP & _). cbn zeta in EQ. rewrite PP in EQ. destruct A' as (A1 & A2 & A3 & A4).
      assert (G : exists before text after, whole = before ++ text ++ after /\ covers (user_action (firstn n rest) (lx_pos st)) before text /\
        size (before ++ text) = len0 + (slen (user_action (firstn n rest) (lx_pos st)) - len0)).
      { exists pre, (firstn n rest), (skipn n rest). rewrite app_assoc. split; [exact W'|]. split; [exact C'|]. lia. }
      destruct (c <=? 0).
      * injection EQ as <-. cbn [located t_len t_pos]. split; [lia|]. split; [exact G|exact I].
      * destruct (lex_from st' _ _) as [ts'|] eqn:ET; [|discriminate EQ]. cbn [obind] in EQ. injection EQ as <-. cbn [located t_len t_pos]. split; [lia|]. split; [exact G|].
        replace (len0 + (slen (user_action (firstn n rest) (lx_pos st)) - len0)) with (slen (user_action (firstn n rest) (lx_pos st))) by lia.
        apply (@IH st' n) with (pre := pre ++ firstn n rest); auto; [lia|rewrite PP; repeat split; auto| |lia]. rewrite PP. eauto.
Qed.
Lemma lex_all_located buf0 sql ts : lex_all buf0 sql = Some ts -> located (c_string sql) 0 ts.
Proof.
  intro H. unfold lex_all in H. apply (@lex_from_located (c_string sql) (lex_init buf0) (c_string sql)) with (pre := []); auto.
  - left; reflexivity.
  - apply c_string_NUL.
  - repeat split; reflexivity.
  - exists [], []. repeat split; reflexivity.
  - reflexivity.
Qed.
Lemma located_split whole ts1 : forall len0 t ts2, located whole len0 (ts1 ++ t :: ts2) ->
  Forall (fun t => 0 <= t_len t) (ts1 ++ [t]) /\
  exists before text after, whole = before ++ text ++ after /\ covers (t_pos t) before text /\ size (before ++ text) = len0 + total_len (ts1 ++ [t]).
Proof.
  induction ts1 as [|u ts1 IH]; intros len0 t ts2 L; cbn [app located total_len fold_right] in *.
  - destruct L as (L1 & (b & x & a & E & C & S) & _). split; [repeat constructor; exact L1|]. exists b, x, a. repeat split; try assumption; try apply C. lia.
  - destruct L as (L1 & _ & L2). destruct (IH _ _ _ L2) as (F & b & x & a & E & C & S). split; [constructor; assumption|]. exists b, x, a. split; [exact E|]. split; [exact C|].
    unfold total_len in S. lia.
Qed.
(** The position and length counters of the scanner are exact. *)
Theorem lex_positions buf0 sql ts1 t ts2 : lex_all buf0 sql = Some (ts1 ++ t :: ts2) ->
  exists before text after, c_string sql = before ++ text ++ after /\ covers (t_pos t) before text /\ size (before ++ text) = total_len (ts1 ++ [t]).
Proof. intro H. apply lex_all_located in H. destruct (located_split H) as (_ & b & x & a & E & C & S). exists b, x, a. auto. Qed.
