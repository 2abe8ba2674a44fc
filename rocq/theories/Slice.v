(** Cutting the text of an input behind a token: the scanner delivers the same tokens for the part before the cut, and goes on behind the cut as if the rest were an input of its own.
    No code of /repo. *)
From Verif Require Import PropLex.
From Verif Require Import ParseProof LexMatch LexRel LexTotal LexPos LexScan LexWords LexTok LexCert TableCheck Stop.
From Coq Require Import ZifyBool ZifyNat ZifyN.
Local Open Scope Z_scope.
Set Implicit Arguments.
Unset Strict Implicit.

(** ** The start condition behind a token *)
(** Two tokens that contain line breaks (CURRENT ROW and CHARACTER VARYING); behind such a token the scanner may still be in a comment. *)
Definition two_words (c : Z) : bool := (c =? TOK_CURRENT_ROW) || (c =? TOK_CHARACTER_VARYING).
Definition lf_rule (r : Z) : bool := (r =? 3) || (r =? 4) || (r =? 169) || (r =? 170) || (r =? 189).
Lemma lf_rules : forallb (only not_LF lf_rule) flex_rules = true. Proof. vm_compute. reflexivity. Qed.
Lemma comment_rule rest r n : ~ In NUL rest -> (1 <= n)%nat -> best (active 5) rest r n -> r = 1 \/ r = 2 \/ r = 3 \/ r = 4 \/ r = 169 \/ r = 170 \/ r = 189.
Proof.
  intros N L (LN & M & F). destruct (lf_rule r) eqn:E; [unfold lf_rule in E; repeat (apply orb_prop in E as [E|E]); apply Z.eqb_eq in E; subst r; tauto|]. assert (W : forallb not_LF (firstn n rest) = true) by (apply (@only_matched not_LF lf_rule 5 r _ lf_rules); [discriminate|exact E|exact M]).
  assert (NN : ~ In NUL (firstn n rest)) by (intro I; apply N; rewrite <- (firstn_skipn n rest); apply in_or_app; now left).
  destruct (F 2 n LN (rule2_matches NN W)) as [_ K]. specialize (K eq_refl). assert (R : 1 <= r); [|lia].
  destruct M as (x & I & _). destruct (active_In I) as (w & I2 & _). assert (A : forallb (fun p => 1 <=? fst p) flex_rules = true) by (vm_compute; reflexivity). rewrite forallb_forall in A. specialize (A _ I2). cbn [fst] in A. lia.
Qed.
Lemma ret_start st rest r n c v st1 : is_start (lx_start st) -> ~ In NUL rest -> (1 <= n)%nat -> best (active (lx_start st)) rest r n -> 1 <= r <= 189 -> run_rule r (firstn n rest) st = Ret c v st1 -> two_words c = false -> lx_start st1 = 1.
Proof.
  intros ST N L B R E T. destruct ST as [S|[S|S]].
  - pose proof (run_rule_ok r (firstn n rest) (st := st) (or_introl S)) as P. clear P. assert (Q : lx_start st1 = lx_start st \/ lx_start st1 = 1); [|destruct Q; congruence].
    revert E. unfold run_rule. rule_cases; try discriminate; try (intro E; injection E as _ _ <-; cbn; auto; fail).
    + destruct (strtoll0 _); intro E; injection E as _ _ <-; cbn; auto.
    + destruct (token_rule r); intro E; injection E as _ _ <-; cbn; auto.
  - rewrite S in B. destruct B as (_ & M & _). apply string_rules in M as [->|[->|[->| ->]]]; revert E; unfold run_rule; cbn [Z.eqb Pos.eqb orb]; try discriminate. intro E. injection E as _ _ <-. reflexivity.
  - rewrite S in B. apply (comment_rule N L) in B as [->|[->|[->|[->|[->|[->| ->]]]]]]; revert E; try discriminate; intro E; exfalso.
    + rewrite (@run_token 169 _ _ TOK_CURRENT_ROW) in E; [|lia|reflexivity]. injection E as <- _ _. discriminate T.
    + rewrite (@run_token 170 _ _ TOK_CHARACTER_VARYING) in E; [|lia|reflexivity]. injection E as <- _ _. discriminate T.
Qed.

(** ** Cutting *)
Lemma best_cut l u x r n : best l (u ++ x) r n -> (n <= List.length u)%nat -> best l u r n.
Proof. intros B L. rewrite <- (app_nil_r u). apply (best_replace B L). intros v y2 r' E NV _. destruct v; [congruence|discriminate E]. Qed.
Lemma slen_user t p : slen (user_action t p) = slen p + size t.
Proof.
  unfold user_action. assert (G : forall q, slen (fold_left advance1 t q) = slen q + size t); [|rewrite G; reflexivity].
  induction t as [|c t IH]; intro q; cbn [fold_left]; [unfold size; cbn; lia|]. rewrite IH. unfold advance1, size. cbn [List.length]. destruct (byte_eqb c LF); cbn [slen]; lia.
Qed.
Definition ended (ts : list token) : Prop := exists t, ts = [t] /\ core t = (0, TVNone).
Lemma lex_from_nil st len : is_start (lx_start st) -> exists t, lex_from st len [] = Some [t] /\ core t = (0, TVNone).
Proof. intro S. rewrite (lex_from_eq len S) by (intros []). destruct (lex_step_total (rest := []) S) as [[_ E]|(r & n & _ & L & _)]; [intros []| |cbn in L; lia]. rewrite E. cbn. eauto. Qed.
Lemma total_cons t l : total_len (t :: l) = t_len t + total_len l. Proof. reflexivity. Qed.
(** The tokens [M] come from the part [x] of the text; the tokens [Q] from the part [y]. *)
Definition cut_at (st : lexst) (len : Z) (rest : bytes) (M Q : list token) (x y : bytes) : Prop :=
  rest = x ++ y /\ slen (lx_pos st) + size x = len + total_len M /\
  (Q = [] -> lex_from st len x = Some M) /\
  (Q <> [] -> (exists t, lex_from st len x = Some (M ++ [t]) /\ core t = (0, TVNone)) /\
     exists st2, is_start (lx_start st2) /\ lex_from st2 (len + total_len M) y = Some Q /\ slen (lx_pos st2) = len + total_len M /\ forall w t, M = w ++ [t] -> two_words (t_code t) = false -> lx_start st2 = 1).
Lemma lex_cut st rest : is_start (lx_start st) -> ~ In NUL rest -> forall len M Q, lex_from st len rest = Some (M ++ Q) -> M <> [] -> exists x y, cut_at st len rest M Q x y.
Proof.
  intros S0 N0. refine (@lex_ind (fun st rest => forall len M Q, lex_from st len rest = Some (M ++ Q) -> M <> [] -> exists x y, cut_at st len rest M Q x y) _ st rest S0 N0).
  clear. intros st rest ST N IH len M Q EQ NM. rewrite (lex_from_eq len ST N) in EQ.
  destruct (lex_step_total ST N) as [[-> E]|(r & n & B & L1 & R & E)]; rewrite E in EQ.
  - cbn in EQ. destruct M as [|t M]; [congruence|]. injection EQ as <- EQ. symmetry in EQ. apply app_eq_nil in EQ as [-> ->]. exists [], []. split; [reflexivity|]. split; [rewrite total_cons; cbn; unfold size; cbn; lia|]. split; [|congruence].
    intros _. rewrite (lex_from_eq len ST N), E. reflexivity.
  - assert (NE : rest <> []) by (intros ->; cbn in L1; lia). pose proof (run_rule_ok r (firstn n rest) ST) as P.
    assert (SZ : size (firstn n rest) = Z.of_nat n) by (unfold size; rewrite firstn_length_le by lia; reflexivity).
    (* the first step is the same when the text is cut behind [firstn n rest ++ x'] *)
    assert (K : forall x' y', skipn n rest = x' ++ y' -> rest = (firstn n rest ++ x') ++ y' /\ ~ In NUL (firstn n rest ++ x') /\ lex_step st (firstn n rest ++ x') = match run_rule r (firstn n rest) st with Skip st' => StepSkip st' x' | Ret c v st' => StepTok c v st' x' end).
    { intros x' y' EX. assert (ER : rest = (firstn n rest ++ x') ++ y') by (rewrite <- app_assoc, <- EX, firstn_skipn; reflexivity). assert (LF : List.length (firstn n rest) = n) by (rewrite firstn_length_le by lia; reflexivity).
      assert (NN : ~ In NUL (firstn n rest ++ x')) by (intro I; apply N; rewrite ER; apply in_or_app; now left). split; [exact ER|]. split; [exact NN|].
      assert (B' : best (active (lx_start st)) (firstn n rest ++ x') r n) by (apply (@best_cut _ _ y'); [rewrite <- ER; exact B|rewrite app_length; lia]).
      rewrite (step_best ST NN B' (proj1 L1)). assert (F1 : firstn n (firstn n rest ++ x') = firstn n rest) by (rewrite firstn_app, LF, Nat.sub_diag, firstn_O, app_nil_r; apply firstn_all2; lia).
      assert (F2 : skipn n (firstn n rest ++ x') = x') by (rewrite skipn_app, LF, Nat.sub_diag, skipn_all2 by lia; reflexivity). rewrite F1, F2. reflexivity. }
    destruct (run_rule r (firstn n rest) st) as [st'|c v st'] eqn:RR.
    + destruct P as [PS PP]. destruct (IH st' n (proj1 L1) PS NE len M Q EQ NM) as (x & y & EX & SX & CQ & CN). destruct (K x y EX) as (ER & NN & EK). exists (firstn n rest ++ x), y. split; [exact ER|].
      assert (EF : lex_from st len (firstn n rest ++ x) = lex_from st' len x) by (rewrite (lex_from_eq len ST NN), EK; reflexivity). rewrite PP, slen_user, SZ in SX. split; [rewrite size_app, SZ; lia|]. rewrite EF. split; [exact CQ|exact CN].
    + destruct P as (PS & PP & PV). cbv zeta in EQ. destruct M as [|t M]; [congruence|]. clear NM. destruct (c <=? 0) eqn:C.
      * injection EQ as <- EQ. symmetry in EQ. apply app_eq_nil in EQ as [-> ->]. destruct (K [] (skipn n rest) eq_refl) as (ER & NN & EK). rewrite app_nil_r in *. exists (firstn n rest), (skipn n rest). split; [exact ER|].
        split; [rewrite total_cons; cbn [t_len total_len fold_right]; rewrite PP, slen_user, SZ; lia|]. split; [|congruence]. intros _. rewrite (lex_from_eq len ST NN), EK. cbv zeta. rewrite C. reflexivity.
      * destruct (lex_from st' (slen (lx_pos st')) (skipn n rest)) as [ts'|] eqn:ET; [|discriminate EQ]. cbn [obind] in EQ. injection EQ as <- EQ. subst ts'.
        set (t0 := mkTok c v (lx_pos st') (slen (lx_pos st') - len)) in *. assert (TL : forall l, len + total_len (t0 :: l) = slen (lx_pos st') + total_len l) by (intro l; rewrite total_cons; cbn [t0 t_len]; lia).
        destruct M as [|t1 M].
        -- destruct (K [] (skipn n rest) eq_refl) as (ER & NN & EK). rewrite app_nil_r in *. exists (firstn n rest), (skipn n rest). split; [exact ER|]. split; [rewrite TL, PP, slen_user, SZ; cbn; lia|].
           cbn [app] in ET. split; [intros ->; exfalso; destruct (@lex_from_total st' (skipn n rest) PS (@skipn_NUL n rest N) (slen (lx_pos st'))) as (q & EQ2 & EE & _); rewrite ET in EQ2; injection EQ2 as <-; inversion EE|].
           intros NQ. destruct (lex_from_nil (slen (lx_pos st')) PS) as (te & EN & CE). split.
           ++ exists te. split; [|exact CE]. rewrite (lex_from_eq len ST NN), EK. cbv zeta. rewrite C, EN. reflexivity.
           ++ exists st'. split; [exact PS|]. rewrite TL. cbn [total_len fold_right]. rewrite Z.add_0_r. split; [exact ET|]. split; [reflexivity|]. intros w t EW TW. destruct w as [|? [|]]; cbn in EW; try discriminate EW. injection EW as <-. exact (ret_start ST N (proj1 L1) B R RR TW).
        -- destruct (IH st' n (proj1 L1) PS NE (slen (lx_pos st')) (t1 :: M) Q ET) as (x & y & EX & SX & CQ & CN); [discriminate|]. destruct (K x y EX) as (ER & NN & EK). exists (firstn n rest ++ x), y. split; [exact ER|].
           assert (EF : lex_from st len (firstn n rest ++ x) = ts <-o lex_from st' (slen (lx_pos st')) x ; Some (t0 :: ts)) by (rewrite (lex_from_eq len ST NN), EK; cbv zeta; rewrite C; reflexivity).
           split; [rewrite TL, size_app, SZ; rewrite PP at 1; rewrite slen_user, SZ in *; lia|]. rewrite EF. split; [intro QN; rewrite (CQ QN); reflexivity|]. intro QN. destruct (CN QN) as ((te & EN & CE) & st2 & X1 & X2 & X3 & X4). split.
           ++ exists te. split; [|exact CE]. rewrite EN. reflexivity.
           ++ exists st2. rewrite TL. split; [exact X1|]. split; [exact X2|]. split; [exact X3|]. intros w t EW TW. destruct w as [|? w]; cbn in EW; [discriminate EW|]. injection EW as _ EW. exact (X4 w t EW TW).
Qed.
