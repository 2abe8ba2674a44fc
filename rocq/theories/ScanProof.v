(** The buffer-level scanner of Scan.v does what the scanner of LexModel.v does, and never leaves its buffer. *)
From Verif Require Import Base FlexTables TokenCodes LexRules LexModel LexMatch LexTotal LexProof LexScan LexRel LexPos Ast Heap Actions ParseModel Api ParseProof Scan.
From Coq Require Import Lia ZifyBool ZifyNat ZifyN.
Local Open Scope Z_scope.
Set Implicit Arguments.

Lemma wr_some mem i c : (i < List.length mem)%nat -> wr mem i c = Some (firstn i mem ++ c :: skipn (S i) mem).
Proof. intro L. unfold wr. apply Nat.ltb_lt in L. now rewrite L. Qed.
Lemma wr_at (a b : bytes) x c i : i = List.length a -> wr (a ++ x :: b) i c = Some (a ++ c :: b).
Proof.
  intros ->. rewrite wr_some by (rewrite app_length; cbn; lia). f_equal. rewrite firstn_app, Nat.sub_diag, firstn_O, app_nil_r, firstn_all. f_equal. f_equal.
  rewrite skipn_app. replace (S (List.length a) - List.length a)%nat with 1%nat by lia. rewrite skipn_all2 by lia. reflexivity.
Qed.
Lemma rd_at (a b : bytes) x i : i = List.length a -> rd (a ++ x :: b) i = Some x.
Proof. intros ->. unfold rd. rewrite nth_error_app2, Nat.sub_diag by lia. reflexivity. Qed.
Lemma split_at (m : bytes) i : (i < List.length m)%nat -> exists a x b, m = a ++ x :: b /\ i = List.length a.
Proof.
  intro L. destruct (nth_error m i) as [x|] eqn:E; [|apply nth_error_None in E; lia]. apply nth_error_split in E as (a & b & -> & <-). eauto.
Qed.
Lemma skipn_step (m : bytes) : forall n c l, skipn n m = c :: l -> skipn (S n) m = l.
Proof. induction m as [|x m IH]; intros [|n] c l E; try discriminate E; [injection E as _ E; exact E|]. exact (IH n c l E). Qed.
(** Setting up yytext and undoing it. *)
Lemma wr_undo m i h c : rd m i = Some h -> exists m1, wr m i c = Some m1 /\ wr m1 i h = Some m.
Proof.
  intro R. assert (L : (i < List.length m)%nat) by (apply nth_error_Some; unfold rd in R; congruence). destruct (split_at _ L) as (a & x & b & -> & EI).
  rewrite (rd_at _ _ _ EI) in R. injection R as <-. exists (a ++ c :: b). split; apply wr_at; exact EI.
Qed.

(** The last accepting position, relative to the beginning of the text in one model, absolute in the other. *)
Definition lift (bp : nat) (stale l : option (Z * nat)) : option (Z * nat) := match l with Some (q, p) => Some (q, (bp + p)%nat) | None => stale end.
Lemma match_loop_ok bp stale : forall buf fuel mem pos s l, skipn (bp + pos) mem = buf -> (List.length buf < fuel)%nat ->
  match_loop fuel mem (bp + pos) s (lift bp stale l) = match yy_match buf pos s l with Some o => Some (lift bp stale o) | None => None end.
Proof.
  induction buf as [|ch buf IH]; intros [|f] mem pos s l E L; try (cbn in L; lia).
  - cbn [match_loop yy_match]. unfold rd. assert (N : nth_error mem (bp + pos) = None). { apply nth_error_None. apply (f_equal (@List.length ascii)) in E. rewrite skipn_length in E. cbn in E. lia. } rewrite N. reflexivity.
  - cbn [match_loop yy_match]. assert (N : rd mem (bp + pos) = Some ch). { unfold rd. rewrite <- (firstn_skipn (bp + pos) mem) at 1. rewrite E. rewrite nth_error_app2 by (rewrite firstn_length; lia). rewrite firstn_length. assert (K : (bp + pos < List.length mem)%nat). { apply (f_equal (@List.length ascii)) in E. rewrite skipn_length in E. cbn in E. lia. } replace (bp + pos - Nat.min (bp + pos) (List.length mem))%nat with 0%nat by lia. reflexivity. }
    rewrite N. cbn [obind]. destruct (get yy_ec (bz ch)) as [c|]; [|reflexivity]. cbn [obind]. destruct (get yy_accept s) as [a|]; [|reflexivity]. cbn [obind]. destruct (yy_next s c) as [s'|]; [|reflexivity]. cbn [obind].
    assert (EL : (if a =? 0 then lift bp stale l else Some (s, (bp + pos)%nat)) = lift bp stale (if a =? 0 then l else Some (s, pos))) by (destruct (a =? 0); reflexivity). rewrite EL.
    destruct (s' =? YY_JAM); [reflexivity|]. replace (S (bp + pos)) with (bp + S pos)%nat by lia. apply IH; [|cbn in L; lia].
    replace (bp + S pos)%nat with (S (bp + pos)) by lia. eapply skipn_step. exact E.
Qed.
Lemma previous_loop_ok bp stale mem : forall text pos s l tail, skipn (bp + pos) mem = text ++ tail -> ~ In NUL text ->
  previous_loop (List.length text) mem (bp + pos) s (lift bp stale l) = match yy_previous text pos s l with Some (q, o) => Some (q, lift bp stale o) | None => None end.
Proof.
  induction text as [|ch text IH]; intros pos s l tail E N; [reflexivity|]. cbn [List.length previous_loop yy_previous].
  assert (K : (bp + pos < List.length mem)%nat). { apply (f_equal (@List.length ascii)) in E. rewrite skipn_length in E. cbn in E. lia. }
  assert (R : rd mem (bp + pos) = Some ch). { unfold rd. rewrite <- (firstn_skipn (bp + pos) mem) at 1. rewrite E. rewrite nth_error_app2 by (rewrite firstn_length; lia). rewrite firstn_length. replace (bp + pos - Nat.min (bp + pos) (List.length mem))%nat with 0%nat by lia. reflexivity. }
  rewrite R. cbn [obind]. assert (C : byte_eqb ch NUL = false) by (destruct (byte_eqb ch NUL) eqn:E2; [apply byte_eqb_eq in E2; subst ch; destruct N; now left|reflexivity]). rewrite C.
  destruct (get yy_ec (bz ch)) as [c|]; [|reflexivity]. cbn [obind]. destruct (get yy_accept s) as [a|]; [|reflexivity]. cbn [obind]. destruct (yy_next s c) as [s'|]; [|reflexivity]. cbn [obind].
  assert (EL : (if a =? 0 then lift bp stale l else Some (s, (bp + pos)%nat)) = lift bp stale (if a =? 0 then l else Some (s, pos))) by (destruct (a =? 0); reflexivity). rewrite EL.
  replace (S (bp + pos)) with (bp + S pos)%nat by lia. apply IH with (tail := tail); [|intro I; apply N; now right]. replace (bp + S pos)%nat with (S (bp + pos)) by lia. eapply skipn_step. exact E.
Qed.

(** The scanner [g] is about to read [rest], the last part of the text [pre ++ rest] in its buffer. *)
Record at_rest (g : scanner) (pre rest : bytes) : Prop := {
  ar_mem : wr (g_mem g) (g_cbuf g) (g_hold g) = Some (pre ++ rest ++ [NUL; NUL]);
  ar_pos : g_cbuf g = List.length pre;
  ar_n : g_nchars g = List.length (pre ++ rest);
  ar_bn : b_nchars g = List.length (pre ++ rest);
  ar_nul : ~ In NUL (pre ++ rest) }.
Lemma text_upto_ok t tail : ~ In NUL t -> text_upto (t ++ NUL :: tail) = Some t.
Proof. induction t as [|c t IH]; intro N; [reflexivity|]. cbn [app text_upto]. destruct (byte_eqb c NUL) eqn:E; [apply byte_eqb_eq in E; subst c; destruct N; now left|]. rewrite IH by (intro; apply N; now right). reflexivity. Qed.
(** Where a rule was found: yytext is the matched text, and the scanner stands behind it. *)
Definition at_rule (g g' : scanner) (pre rest : bytes) (n : nat) : Prop :=
  at_rest g' (pre ++ firstn n rest) (skipn n rest) /\ yytext g' = Some (firstn n rest) /\ g_start g' = g_start g /\ List.length (g_mem g') = List.length (g_mem g).
(** Setting up yytext for a rule. *)
Lemma rule_found g pre rest n r s f : g_mem g = pre ++ rest ++ [NUL; NUL] -> ~ In NUL (pre ++ rest) -> g_nchars g = List.length (pre ++ rest) -> b_nchars g = List.length (pre ++ rest) ->
  (n <= List.length rest)%nat -> 1 <= r <= 189 -> get yy_accept s = Some r ->
  exists g', find_action (S f) g (List.length pre + n) (List.length pre) s = Some (SRule r g') /\ at_rule g g' pre rest n.
Proof.
  intros M N NC BC L R A. cbn [find_action]. rewrite A. cbn [obind].
  assert (SP : exists x b, skipn n rest ++ [NUL; NUL] = x :: b) by (destruct (skipn n rest); cbn; eauto). destruct SP as (x & b & SP).
  assert (EM : g_mem g = (pre ++ firstn n rest) ++ x :: b). { rewrite M, <- SP, <- app_assoc. f_equal. rewrite app_assoc, firstn_skipn. reflexivity. }
  assert (EL : (List.length pre + n)%nat = List.length (pre ++ firstn n rest)) by (rewrite app_length, firstn_length; lia).
  rewrite EM, (rd_at _ _ _ EL). cbn [obind]. rewrite (wr_at _ _ _ _ EL). cbn [obind].
  replace (r =? 0) with false by lia. replace (r =? YY_END_OF_BUFFER) with false by (unfold YY_END_OF_BUFFER; lia). replace ((1 <=? r) && (r <=? 189)) with true by lia.
  eexists. split; [reflexivity|]. split; [|split; [|split]].
  - split; cbn [g_mem g_cbuf g_hold g_nchars b_nchars].
    + rewrite (wr_at _ _ _ _ EL). f_equal. rewrite <- SP. reflexivity.
    + exact EL.
    + rewrite NC, <- app_assoc, firstn_skipn. reflexivity.
    + rewrite BC, <- app_assoc, firstn_skipn. reflexivity.
    + rewrite <- app_assoc, firstn_skipn. exact N.
  - unfold yytext. cbn [g_text g_mem]. rewrite <- app_assoc, skipn_app, Nat.sub_diag, skipn_all. cbn [app skipn]. apply text_upto_ok. intro I. apply N. apply in_or_app. right. rewrite <- (firstn_skipn n rest). apply in_or_app. now left.
  - reflexivity.
  - cbn [g_mem]. rewrite EM, !app_length. reflexivity.
Qed.
Lemma skip_pre (pre l : bytes) : skipn (List.length pre + 0) (pre ++ l) = l.
Proof. rewrite Nat.add_0_r, skipn_app, Nat.sub_diag, skipn_all. reflexivity. Qed.
(** What the jumps in find_action keep. *)
Record same_but (g g' : scanner) (mem : bytes) : Prop := { sb_mem : g_mem g' = mem; sb_n : g_nchars g' = g_nchars g; sb_b : b_nchars g' = b_nchars g; sb_s : g_start g' = g_start g }.
Lemma back_up f g cp bp s q p h : get yy_accept s = Some 0 -> rd (g_mem g) cp = Some h -> g_last g = Some (q, p) ->
  exists g', find_action (S f) g cp bp s = find_action f g' p bp q /\ same_but g g' (g_mem g) /\ g_last g' = g_last g.
Proof.
  intros A R L. cbn [find_action]. rewrite A. cbn [obind]. rewrite R. cbn [obind]. destruct (wr_undo _ _ NUL R) as (m1 & W1 & W2). rewrite W1. cbn [obind]. change (0 =? 0) with true. cbv iota. rewrite W2. cbn [obind]. rewrite L. cbn [obind fst snd].
  eexists. split; [reflexivity|]. split; [split; reflexivity|reflexivity].
Qed.
Lemma end_of_buffer f g cp bp s h n : get yy_accept s = Some YY_END_OF_BUFFER -> rd (g_mem g) cp = Some h -> g_nchars g = n -> b_nchars g = n -> cp = S n -> (bp <= n)%nat ->
  exists g', same_but g g' (g_mem g) /\ g_hold g' = h /\ g_text g' = bp /\ g_last g' = g_last g /\
    find_action (S f) g cp bp s =
    if (S n - bp =? 1)%nat then Some (SEof (set_cbuf bp g'))
    else p <-o previous_loop (n - bp) (g_mem g) bp (g_start g) (g_last g) ; find_action f (set_last (snd p) (set_cbuf n g')) n bp (fst p).
Proof.
  intros A R NC BC -> LE. cbn [find_action]. rewrite A. cbn [obind]. rewrite R. cbn [obind]. destruct (wr_undo _ _ NUL R) as (m1 & W1 & W2). rewrite W1. cbn [obind].
  change (YY_END_OF_BUFFER =? 0) with false. change (YY_END_OF_BUFFER =? YY_END_OF_BUFFER) with true. cbv iota. rewrite W2. cbn [obind].
  set (g2 := if b_new g then _ else _).
  assert (G2 : g_mem g2 = g_mem g /\ g_cbuf g2 = S n /\ g_nchars g2 = n /\ b_nchars g2 = n /\ g_text g2 = bp /\ g_start g2 = g_start g /\ g_hold g2 = h /\ g_last g2 = g_last g).
  { unfold g2. destruct (b_new g); cbn [g_mem g_cbuf g_nchars b_nchars g_text g_start g_hold g_last set_mem]; repeat split; auto. }
  clearbody g2. destruct G2 as (G1 & G2 & G3 & G4 & G5 & G6 & G7 & G8). exists g2. split; [split; congruence|]. split; [exact G7|]. split; [exact G5|]. split; [exact G8|]. rewrite G2, G3, G5.
  replace (S n <=? n)%nat with false by (symmetry; apply Nat.leb_gt; lia). replace (S n <? S n)%nat with false by (symmetry; apply Nat.ltb_ge; lia).
  destruct (S n - bp =? 1)%nat; [reflexivity|]. unfold previous_state. cbn [set_cbuf g_cbuf g_text g_mem g_start g_last]. rewrite G1, G5, G6, G8. reflexivity.
Qed.
(** One round of the outer loop. *)
Lemma scan_once_ok g pre rest a : at_rest g pre rest -> lex_match (g_start g) rest = Some a -> match a with ARule r n => (n <= List.length rest)%nat /\ 1 <= r <= 189 | AEof => rest = [] end ->
  match a with
  | AEof => exists g', scan_once g = Some (SEof g') /\ at_rest g' pre rest /\ g_start g' = g_start g /\ List.length (g_mem g') = List.length (g_mem g)
  | ARule r n => exists g', scan_once g = Some (SRule r g') /\ at_rule g g' pre rest n
  end.
Proof.
  intros [W P NC BC N] E RA. unfold lex_match in E. unfold scan_once. rewrite W. cbn [obind]. set (mem := pre ++ rest ++ [NUL; NUL]) in *.
  assert (LM : List.length (g_mem g) = List.length mem). { assert (LT : (g_cbuf g < List.length (g_mem g))%nat) by (unfold wr in W; destruct (g_cbuf g <? List.length (g_mem g))%nat eqn:K; [apply Nat.ltb_lt in K; exact K|discriminate]).
    destruct (split_at _ LT) as (u & x & v & EM & EI). rewrite EM in W. rewrite (wr_at _ _ _ _ EI) in W. injection W as W. rewrite EM, <- W, !app_length. reflexivity. }
  pose proof (@match_loop_ok (List.length pre) (g_last g) (rest ++ [NUL; NUL]) (S (List.length mem)) mem 0 (g_start g) None) as ML. cbn [lift] in ML. rewrite Nat.add_0_r in ML. rewrite P, ML; clear ML.
  2: { pose proof (skip_pre pre (rest ++ [NUL; NUL])) as K. rewrite Nat.add_0_r in K. exact K. }
  2: { unfold mem. rewrite !app_length. cbn. lia. }
  destruct (yy_match (rest ++ [NUL; NUL]) 0 (g_start g) None) as [[[q p]|]|] eqn:YM; cbn [obind] in E; try discriminate E. cbn [lift obind fst snd]. cbn [fst snd] in E.
  set (g0 := set_last (Some (q, (List.length pre + p)%nat)) (set_mem mem g)).
  assert (M0 : g_mem g0 = mem) by reflexivity. assert (N0 : g_nchars g0 = List.length (pre ++ rest)) by exact NC. assert (B0 : b_nchars g0 = List.length (pre ++ rest)) by exact BC. assert (S0 : g_start g0 = g_start g) by reflexivity.
  assert (L0 : g_last g0 = Some (q, (List.length pre + p)%nat)) by reflexivity. clearbody g0.
  assert (LL : forall n, (n <= List.length rest)%nat -> exists h, rd mem (List.length pre + n) = Some h).
  { intros n Ln. destruct (rd mem (List.length pre + n)) as [h|] eqn:R; [eauto|]. unfold rd in R. apply nth_error_None in R. unfold mem in R. rewrite !app_length in R. cbn in R. lia. }
  destruct (get yy_accept q) as [r|] eqn:AQ; cbn [obind fst snd] in E; [|discriminate E]. 
  assert (X : forall f0, match a with
  | AEof => exists g', find_action (S (S (S f0))) g0 (List.length pre + p) (List.length pre) q = Some (SEof g') /\ at_rest g' pre rest /\ g_start g' = g_start g /\ List.length (g_mem g') = List.length (g_mem g)
  | ARule r n => exists g', find_action (S (S (S f0))) g0 (List.length pre + p) (List.length pre) q = Some (SRule r g') /\ at_rule g g' pre rest n
  end).
  { intro f0. assert (AR : forall g1 n r s f, same_but g0 g1 mem -> (n <= List.length rest)%nat -> 1 <= r <= 189 -> get yy_accept s = Some r ->
      exists g', find_action (S f) g1 (List.length pre + n) (List.length pre) s = Some (SRule r g') /\ at_rule g g' pre rest n).
    { intros g1 n r1 s1 f [Y1 Y2 Y3 Y4] Ln Rr Aa. destruct (@rule_found g1 pre rest n r1 s1 f Y1 N (eq_trans Y2 N0) (eq_trans Y3 B0) Ln Rr Aa) as (g' & F & A1 & A2 & A3 & A4).
      exists g'. split; [exact F|]. split; [exact A1|]. split; [exact A2|]. split; [congruence|]. rewrite A4, Y1. symmetry. exact LM. }
    destruct (r =? 0) eqn:R0; [discriminate E|]. destruct (r =? YY_END_OF_BUFFER) eqn:RE.
    - apply Z.eqb_eq in RE. subst r. destruct (Nat.eqb p (S (List.length rest))) eqn:PE; cbn [negb] in E; [|discriminate E]. apply Nat.eqb_eq in PE. subst p.
      assert (R1 : rd mem (List.length pre + S (List.length rest)) = Some NUL).
      { unfold mem. change [NUL; NUL] with ([NUL] ++ [NUL]). rewrite !app_assoc. apply rd_at. rewrite !app_length. cbn. lia. }
      destruct (@end_of_buffer (S (S f0)) g0 (List.length pre + S (List.length rest)) (List.length pre) q NUL (List.length (pre ++ rest)) AQ) as (g2 & SB & H2 & T2 & L2 & F2).
      { rewrite M0. exact R1. } { exact N0. } { exact B0. } { rewrite app_length. lia. } { rewrite app_length. lia. }
      rewrite F2; clear F2. destruct (Nat.eqb (S (List.length rest)) 1) eqn:P1.
      + injection E as <-. apply Nat.eqb_eq in P1. replace (S (List.length (pre ++ rest)) - List.length pre =? 1)%nat with true by (rewrite app_length; symmetry; apply Nat.eqb_eq; lia).
        eexists. split; [reflexivity|]. destruct SB as [Y1 Y2 Y3 Y4]. split; [|split; [cbn [set_cbuf g_start]; congruence|cbn [set_cbuf g_mem]; rewrite Y1, M0; symmetry; exact LM]].
        split; cbn [set_cbuf g_mem g_cbuf g_hold g_nchars b_nchars].
        * rewrite Y1, M0, H2. subst rest. unfold mem. cbn [app]. apply wr_at. reflexivity.
        * reflexivity.
        * congruence.
        * congruence.
        * exact N.
      + apply Nat.eqb_neq in P1. replace (S (List.length (pre ++ rest)) - List.length pre =? 1)%nat with false by (rewrite app_length; symmetry; apply Nat.eqb_neq; lia).
        replace (List.length (pre ++ rest) - List.length pre)%nat with (List.length rest) by (rewrite app_length; lia).
        pose proof (@previous_loop_ok (List.length pre) (g_last g0) mem rest 0 (g_start g) None [NUL; NUL]) as PL. cbn [lift] in PL. rewrite Nat.add_0_r in PL. rewrite M0, S0, PL; clear PL.
        2: { pose proof (skip_pre pre (rest ++ [NUL; NUL])) as K. rewrite Nat.add_0_r in K. exact K. }
        2: { intro I. apply N. apply in_or_app. now right. }
        destruct (yy_previous rest 0 (g_start g) None) as [[q1 o1]|]; cbn [obind fst snd] in E |- *; [|discriminate E].
        destruct (get yy_accept q1) as [a1|] eqn:A1; cbn [obind] in E; [|discriminate E].
        replace (List.length (pre ++ rest)) with (List.length pre + List.length rest)%nat by (rewrite app_length; reflexivity).
        set (g3 := set_last _ _). assert (SB3 : same_but g0 g3 mem) by (destruct SB as [Y1 Y2 Y3 Y4]; split; unfold g3; cbn [set_last set_cbuf g_mem g_nchars b_nchars g_start]; congruence).
        assert (L3 : g_last g3 = lift (List.length pre) (g_last g0) o1) by reflexivity. clearbody g3.
        destruct (a1 =? YY_END_OF_BUFFER) eqn:AE; [discriminate E|]. destruct (a1 =? 0) eqn:AZ.
        * apply Z.eqb_eq in AZ. subst a1. destruct o1 as [[q2 p2]|]; cbn [obind fst snd] in E; [|discriminate E]. destruct (get yy_accept q2) as [a2|] eqn:A2; cbn [obind] in E; [|discriminate E].
          destruct ((a2 =? 0) || (a2 =? YY_END_OF_BUFFER)) eqn:AX; [discriminate E|]. injection E as <-. cbn [lift] in L3. destruct RA as [RA1 RA2].
          destruct (LL (List.length rest) (le_n _)) as (h & Rh). rewrite <- (sb_mem SB3) in Rh. destruct (@back_up (S f0) g3 _ (List.length pre) q1 _ _ _ A1 Rh L3) as (g4 & F4 & SB4 & L4). rewrite F4.
          apply AR; [|exact RA1|exact RA2|exact A2]. destruct SB4 as [Z1 Z2 Z3 Z4], SB3 as [Y1 Y2 Y3 Y4]. split; congruence.
        * injection E as <-. destruct RA as [RA1 RA2]. apply AR; [exact SB3|exact RA1|exact RA2|exact A1].
    - injection E as <-. destruct RA as [RA1 RA2]. apply AR; [split; auto|exact RA1|exact RA2|exact AQ]. }
  exact (X 1%nat).
Qed.

(** ** One call of hsql_lex *)
Lemma firstn_split (n : nat) (pre rest : bytes) : (pre ++ firstn n rest) ++ skipn n rest = pre ++ rest.
Proof. rewrite <- app_assoc, firstn_skipn. reflexivity. Qed.
Definition token_of (c : Z) (v : tokval) (pos' pos : lexpos) : token := mkTok c v pos' (slen pos' - slen pos).
(** What a call does, in terms of LexModel.v; [n]: the bytes left before. *)
Definition yylex_does (fuel : nat) (g : scanner) (buf : bytes) (pos : lexpos) (pre rest : bytes) : Prop :=
  exists c v g' buf' pos' pre' rest', yylex fuel g buf pos = Some (c, v, g', buf', pos') /\
    at_rest g' pre' rest' /\ is_start (g_start g') /\ pre' ++ rest' = pre ++ rest /\ List.length (g_mem g') = List.length (g_mem g) /\ (List.length rest' <= List.length rest)%nat /\
    ((List.length rest' < List.length rest)%nat \/ rest = [] /\ c = 0) /\
    forall len0, lex_from (mkLex (g_start g) buf pos) len0 rest =
      let t := mkTok c v pos' (slen pos' - len0) in
      if c <=? 0 then Some [t] else ts <-o lex_from (mkLex (g_start g') buf' pos') (slen pos') rest' ; Some (t :: ts).
Lemma yylex_ok : forall fuel g buf pos pre rest, at_rest g pre rest -> is_start (g_start g) -> (List.length rest < fuel)%nat -> yylex_does fuel g buf pos pre rest.
Proof.
  induction fuel as [|f IH]; intros g buf pos pre rest AR IS LT; [lia|].
  assert (N : ~ In NUL rest) by (intro I; apply (ar_nul AR); apply in_or_app; now right).
  unfold yylex_does. cbn [yylex]. destruct rest as [|b rest0].
  - pose proof (lex_match_eof IS) as E. destruct (scan_once_ok AR E eq_refl) as (g' & F & A & S & L). rewrite F. cbn [obind].
    exists 0, TVNone, g', buf, pos, pre, []. split; [reflexivity|]. split; [exact A|]. split; [rewrite S; exact IS|]. split; [reflexivity|]. split; [exact L|]. split; [cbn; lia|]. split; [right; split; reflexivity|].
    intro len0. unfold lex_from. cbn [List.length lex_tokens]. unfold lex_step. cbn [lx_start]. rewrite E. reflexivity.
  - set (rest := b :: rest0) in *. destruct (lex_match_best IS N) as (r & n & E & B & L & R); [discriminate|].
    assert (Ln : (n <= List.length rest)%nat) by (destruct B as (B & _); exact B).
    destruct (scan_once_ok AR E (conj Ln R)) as (g' & F & A & T & S & M). rewrite F. cbn [obind]. rewrite T. cbn [obind]. rewrite S.
    assert (EQ : forall len0, lex_from (mkLex (g_start g) buf pos) len0 rest =
      match run_rule r (firstn n rest) (mkLex (g_start g) buf pos) with
      | Skip st' => lex_from st' len0 (skipn n rest)
      | Ret c v st' => let t := mkTok c v (lx_pos st') (slen (lx_pos st') - len0) in if c <=? 0 then Some [t] else ts <-o lex_from st' (slen (lx_pos st')) (skipn n rest) ; Some (t :: ts)
      end).
    { intro len0. rewrite (@lex_from_eq (mkLex (g_start g) buf pos) len0 rest IS N). unfold lex_step. cbn [lx_start]. rewrite E. destruct (run_rule r (firstn n rest) (mkLex (g_start g) buf pos)); reflexivity. }
    pose proof (@run_rule_ok r (firstn n rest) (mkLex (g_start g) buf pos) IS) as OK. destruct (run_rule r (firstn n rest) (mkLex (g_start g) buf pos)) as [st'|c v st'].
    + destruct OK as [OS _]. assert (A2 : at_rest (set_start (lx_start st') g') (pre ++ firstn n rest) (skipn n rest)) by (destruct A; split; assumption).
      destruct (IH (set_start (lx_start st') g') (lx_buf st') (lx_pos st') _ _ A2 OS) as (c & v & g2 & buf2 & pos2 & pre2 & rest2 & F2 & B1 & B2 & B3 & B4 & B5 & B6 & B7); [rewrite skipn_length; lia|].
      exists c, v, g2, buf2, pos2, pre2, rest2. split; [exact F2|]. split; [exact B1|]. split; [exact B2|]. split; [rewrite B3; apply firstn_split|]. split; [rewrite B4; exact M|]. rewrite skipn_length in B5. split; [lia|]. split; [left; lia|].
      intro len0. rewrite EQ. cbn [set_start g_start] in B7. rewrite <- B7. destruct st'; reflexivity.
    + destruct OK as [OS [OP OV]]. exists c, v, (set_start (lx_start st') g'), (lx_buf st'), (lx_pos st'), (pre ++ firstn n rest), (skipn n rest). split; [reflexivity|].
      split; [destruct A; split; assumption|]. split; [exact OS|]. split; [apply firstn_split|]. split; [exact M|]. split; [rewrite skipn_length; lia|]. split; [left; rewrite skipn_length; lia|].
      intro len0. rewrite EQ. cbn [set_start g_start]. destruct st'; reflexivity.
Qed.
(** ** All calls up to the end *)
Lemma scan_tokens_ok : forall fuel g buf pos pre rest, at_rest g pre rest -> is_start (g_start g) -> (List.length rest < fuel)%nat -> (List.length rest < List.length (g_mem g))%nat ->
  scan_tokens fuel g buf pos = lex_from (mkLex (g_start g) buf pos) (slen pos) rest.
Proof.
  induction fuel as [|f IH]; intros g buf pos pre rest AR IS LT LM; [lia|]. cbn [scan_tokens].
  destruct (@yylex_ok (S (List.length (g_mem g))) g buf pos pre rest AR IS) as (c & v & g' & buf' & pos' & pre' & rest' & E & A & S & P & M & L & L2 & Q); [lia|].
  rewrite E. cbn [obind]. rewrite Q. cbv zeta. destruct (c <=? 0) eqn:C; [reflexivity|]. destruct L2 as [L2|[_ ->]]; [|discriminate C].
  rewrite (IH g' buf' pos' pre' rest' A S); [reflexivity|lia|lia].
Qed.
Lemma scan_string_ok sql : Z.of_nat (List.length (c_string sql)) + 2 <= INT_MAX -> exists g, scan_string sql = Some g /\ at_rest g [] (c_string sql) /\ g_start g = 1 /\ List.length (g_mem g) = (List.length (c_string sql) + 2)%nat.
Proof.
  intro L. unfold scan_string. apply Z.leb_le in L. rewrite L. assert (X : exists h t, c_string sql ++ [NUL; NUL] = h :: t) by (destruct (c_string sql); cbn; eauto). destruct X as (h & t & X).
  assert (R : rd (c_string sql ++ [NUL; NUL]) 0 = Some h) by (rewrite X; reflexivity). rewrite R. cbn [obind]. eexists. split; [reflexivity|]. split; [|split; [reflexivity|cbn [g_mem]; rewrite app_length; reflexivity]].
  split; cbn [g_mem g_cbuf g_hold g_nchars b_nchars app]; try reflexivity; [|apply c_string_NUL]. rewrite X. reflexivity.
Qed.
Theorem scan_all_ok buf0 sql : Z.of_nat (List.length (c_string sql)) + 2 <= INT_MAX -> scan_all buf0 sql = lex_all buf0 sql.
Proof.
  intro L. destruct (@scan_string_ok sql L) as (g & E & A & S & M). unfold scan_all. rewrite E. cbn [obind].
  rewrite (@scan_tokens_ok (Datatypes.S (List.length (c_string sql))) g buf0 pos0 [] (c_string sql) A); [|rewrite S; left; reflexivity|lia|lia]. rewrite S. reflexivity.
Qed.
