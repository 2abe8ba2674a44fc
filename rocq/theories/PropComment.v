(** Property C65: what a comment hides, for every input (C50 covers the inputs without a two-word keyword broken over a line end).  Vocabulary as in PropLex.v and PropExact.v.
    No code of /repo. *)
From Verif Require Import PropExact.
From Verif Require Import PropLex ParseProof LexRel LexScan LexWords LexTok.
From Verif Require Import LexCert TableCheck LexScan LexWords LexTok Slice.
From Coq Require Import ZifyBool ZifyNat ZifyN.
Local Open Scope Z_scope.

(** ** What is hidden *)
(** The text begins with a two-word keyword (CURRENT ROW, CHARACTER VARYING) whose words are on different lines; [c] is its token and [tail] the text behind it. *)
Definition broken_pair (t : bytes) (c : Z) (tail : bytes) : Prop :=
  exists k1 k2 u bl x, In (k1, k2, c) pairs /\ t = u ++ bl ++ x ++ tail /\ same_case k1 u /\ same_case k2 x /\ blank bl /\ In LF bl.
(** [hides t l rest]: when [t] follows the two dashes of a comment, the comment yields the tokens [l] and [rest] is the text behind it.  A comment is read piece by piece:
    a piece is a line end (which finishes the comment), blanks that reach over a line end, a two-word keyword broken over a line end (which is delivered as a token, and the
    comment goes on), or the rest of the line. *)
Inductive hides : bytes -> list (Z * tokval) -> bytes -> Prop :=
| h_end : hides [] [] []
| h_line_end : forall rest, starts is_blank rest = false -> hides (LF :: rest) [] rest
| h_blanks : forall w t l rest, blank w -> In LF w -> w <> [LF] -> starts is_blank t = false -> hides t l rest -> hides (w ++ t) l rest
| h_pair : forall t c tail l rest, broken_pair t c tail -> hides tail l rest -> hides t ((c, TVNone) :: l) rest
| h_text : forall w t l rest, w <> [] -> ~ In LF w -> (t = [] \/ existsb (fun x => negb (is_blank x)) w = true /\ exists b, t = LF :: b) -> (forall c tail, ~ broken_pair (w ++ t) c tail) -> hides t l rest -> hides (w ++ t) l rest.

(** ** The scanner in a comment *)
Lemma scan_pair5 buf t c tail : broken_pair t c tail -> scans 5 buf t [(c, TVNone)] 5 buf tail.
Proof.
  intros (k1 & k2 & w & bl & x & I & -> & S1 & S2 & B & IL).
  assert (Q : exists r, (r = 169 /\ k1 = la "CURRENT" /\ k2 = la "ROW" \/ r = 170 /\ k1 = la "CHARACTER" /\ k2 = la "VARYING") /\ token_rule r = Some c /\ 0 < c).
  { destruct I as [E|[E|[]]]; injection E as <- <- <-; [exists 169|exists 170]; (split; [auto|split; [vm_compute; reflexivity|reflexivity]]). }
  destruct Q as (r & Q & TR & CP). assert (R : 169 <= r <= 170) by (destruct Q as [(-> & _)|(-> & _)]; lia).
  assert (A : forallb is_alpha k1 = true /\ forallb is_alpha k2 = true /\ k1 <> [] /\ k2 <> []) by (destruct Q as [(_ & -> & ->)|(_ & -> & ->)]; repeat split; try reflexivity; discriminate).
  destruct A as (A1 & A2 & N1 & N2). pose proof (alpha_chars_word S1 A1) as WW. destruct (alpha_starts _ _ S2 A2 N2) as [X1 X2]. destruct (alpha_starts _ _ S1 A1 N1) as [WB WN].
  set (p := w ++ bl ++ x). replace (w ++ bl ++ x ++ tail) with (p ++ tail) by (unfold p; rewrite <- !app_assoc; reflexivity).
  change 5 with (lx_start (mkLex 5 buf (user_action p pos0))) at 2. change buf with (lx_buf (mkLex 5 buf (user_action p pos0))) at 2.
  assert (NB : forallb not_LF p = false).
  { destruct (forallb not_LF p) eqn:F; [|reflexivity]. assert (K : not_LF LF = true) by (apply (proj1 (forallb_forall _ _) F); unfold p; apply in_or_app; right; apply in_or_app; now left). discriminate K. }
  assert (P2 : exists d1 d2 p0, p = d1 :: d2 :: p0 /\ is_blank d1 = false).
  { unfold p. destruct w as [|d1 w]; [congruence|]. destruct B as [BN _]. cbn [starts] in WB. destruct (w ++ bl ++ x) as [|d2 p0] eqn:E; [|exists d1, d2, p0; cbn [app]; rewrite E; auto].
    apply app_eq_nil in E as [_ E]. apply app_eq_nil in E as [E _]. contradiction. }
  destruct P2 as (d1 & d2 & p0 & EP & BD).
  assert (ONLY : forall y r', matched (active 5) r' (p ++ y) -> (r' = 169 \/ r' = 170)).
  { intros y r' M. destruct (lf_rule r') eqn:LR.
    - unfold lf_rule in LR. assert (RC : r' = 3 \/ r' = 4 \/ r' = 189 \/ r' = 169 \/ r' = 170) by lia. destruct RC as [->|[->|[->|RC]]]; [exfalso|exfalso|exfalso|exact RC].
      + apply matched_rule in M as [M _]. rewrite rx_3 in M. apply matches_Chr in M; [|discriminate]. rewrite EP in M. discriminate M.
      + apply matched_rule in M as [M _]. rewrite rx_4 in M. apply matches_blanks in M as [_ M]. rewrite EP in M. cbn [app forallb] in M. rewrite BD in M. discriminate M.
      + apply matched_rule in M as [M _]. apply matches_189 in M as (z & E). rewrite EP in E. discriminate E.
    - exfalso. pose proof (@only_matched not_LF lf_rule 5 r' _ Slice.lf_rules ltac:(lia) LR M) as F. rewrite forallb_app, NB in F. discriminate F. }
  assert (SAME : forall y r', matched (active 5) r' (p ++ y) -> r' = r /\ y = []).
  { intros y r' M. destruct (ONLY _ _ M) as [->| ->]; [apply matched_169 in M|apply matched_170 in M]; destruct M as (u' & bl' & x' & E & T1 & B' & T2); unfold p in E; rewrite <- !app_assoc in E;
      (assert (P := E); apply pair_parts in P; auto;
       [|eapply alpha_chars_word; [exact T1|reflexivity]|eapply alpha_starts; [exact T2|reflexivity|discriminate]|eapply alpha_starts; [exact T2|reflexivity|discriminate]]);
      destruct P as (-> & -> & EX);
      (destruct Q as [(-> & -> & ->)|(-> & -> & ->)]; [|]); try (exfalso; unfold same_case in *; rewrite <- T1 in S1; discriminate S1);
      (split; [reflexivity|]); apply (f_equal (@List.length ascii)) in EX; rewrite app_length in EX; pose proof (same_case_length S2) as L2; pose proof (same_case_length T2) as L3; cbn in L2, L3; (destruct y; [reflexivity|cbn in EX; lia]). }
  apply scans_one with (r := r); [exact ST5|rewrite EP; discriminate| |lia|apply (@run_token r p (mkLex 5 buf pos0) c); [lia|exact TR]|lia].
  apply best_intro.
  - apply rule_matched; [|destruct Q as [(-> & _)|(-> & _)]; vm_compute; reflexivity].
    destruct Q as [(-> & -> & ->)|(-> & -> & ->)]; [rewrite rx_169|rewrite rx_170]; (apply matches_two; [apply no_nul; reflexivity|apply no_nul; reflexivity|]); exists w, bl, x; auto.
  - intros r' M. rewrite <- (app_nil_r p) in M. destruct (SAME _ _ M). lia.
  - intros d v u r' _ M. destruct (SAME _ _ M) as [_ K]. discriminate K.
Qed.
Lemma keyword_broken w b : is_keyword_pair w b -> exists c tail, broken_pair (w ++ LF :: b) c tail.
Proof.
  intros (bl & u & x & tail & E & B & I & [[S1 S2]|[S1 S2]]).
  - exists TOK_CURRENT_ROW, tail, (la "CURRENT"), (la "ROW"), u, bl, x. split; [now left|]. repeat split; auto using same_case_sym; apply B.
  - exists TOK_CHARACTER_VARYING, tail, (la "CHARACTER"), (la "VARYING"), u, bl, x. split; [right; now left|]. repeat split; auto using same_case_sym; apply B.
Qed.
Lemma scan_hides buf t l rest : hides t l rest -> ~ In NUL t -> scans 5 buf t l 1 buf rest \/ rest = [] /\ scans 5 buf t l 5 buf [].
Proof.
  induction 1 as [|rest S|w t l rest W IL NW S H IH|t c tail l rest BP H IH|w t l rest NE NL C NP H IH]; intro N.
  - right. split; [reflexivity|]. apply sc_refl. exact ST5.
  - left. apply scan_line_end; [exact S|]. intro I. apply N. now right.
  - pose proof (scan_blank_lines buf w t W S IL NW) as K. apply NUL_app in N as [_ N]. destruct (IH N) as [K2|[-> K2]]; [left|right; split; [reflexivity|]]; exact (scans_trans K K2).
  - pose proof (scan_pair5 buf _ _ _ BP) as K. assert (NT : ~ In NUL tail).
    { destruct BP as (k1 & k2 & u & bl & x & _ & -> & _). rewrite !NUL_app in N. tauto. }
    destruct (IH NT) as [K2|[-> K2]]; [left|right; split; [reflexivity|]]; exact (scans_trans K K2).
  - assert (K : scans 5 buf (w ++ t) [] 5 buf t).
    { apply scan_comment_text; [exact NE|apply NUL_app in N; tauto| |destruct C as [C|(C1 & b & C2)]; [left; exact C|right; split; [exact C1|]; exists b; split; [exact C2|]; intro K; subst t; apply keyword_broken in K as (c & tail & K); exact (NP _ _ K)]].
      apply forallb_forall. intros z I. unfold not_LF. destruct (byte_eqb z LF) eqn:E; [|reflexivity]. apply byte_eqb_eq in E. subst z. contradiction. }
    apply NUL_app in N as [_ N]. destruct (IH N) as [K2|[-> K2]]; [left|right; split; [reflexivity|]]; exact (scans_trans K K2).
Qed.

(** ** Every text has such a reading *)
Lemma blanks_unique b0 : forall b1 bl y, forallb is_blank b0 = true -> starts is_blank b1 = false -> forallb is_blank bl = true -> starts is_blank y = false -> b0 ++ b1 = bl ++ y -> b0 = bl /\ b1 = y.
Proof.
  induction b0 as [|d b0 IH]; intros b1 [|e bl] y F1 S1 F2 S2 E; cbn [app forallb] in *.
  - auto.
  - exfalso. subst b1. cbn [starts] in S1. apply andb_prop in F2 as [F2 _]. congruence.
  - exfalso. subst y. cbn [starts] in S2. apply andb_prop in F1 as [F1 _]. congruence.
  - injection E as -> E. apply andb_prop in F1 as [_ F1]. apply andb_prop in F2 as [_ F2]. destruct (IH _ _ _ F1 S1 F2 S2 E) as [-> ->]. auto.
Qed.
Lemma starts_app f (x y : bytes) : x <> [] -> starts f (x ++ y) = starts f x. Proof. destruct x; [congruence|reflexivity]. Qed.
Lemma broken_dec t : (exists c tail, broken_pair t c tail) \/ (forall c tail, ~ broken_pair t c tail).
Proof.
  assert (K : forall k1 k2, forallb is_alpha k1 = true -> forallb is_alpha k2 = true -> k1 <> [] -> k2 <> [] ->
    (exists u bl x tail, t = u ++ bl ++ x ++ tail /\ same_case k1 u /\ same_case k2 x /\ blank bl /\ In LF bl) \/ (forall u bl x tail, t = u ++ bl ++ x ++ tail -> same_case k1 u -> same_case k2 x -> blank bl -> ~ In LF bl)).
  { intros k1 k2 A1 A2 N1 N2. destruct (split_blank (skipn (List.length k1) t)) as (b0 & b1 & E & F & S).
    assert (D : forall u bl x tail, t = u ++ bl ++ x ++ tail -> same_case k1 u -> same_case k2 x -> blank bl -> u = firstn (List.length k1) t /\ bl = b0 /\ x = firstn (List.length k2) b1).
    { intros u bl x tail -> S1 S2 [BN B]. rewrite (same_case_length S1), firstn_app, Nat.sub_diag, firstn_all, firstn_O, app_nil_r. split; [reflexivity|].
      rewrite (same_case_length S1), skipn_app, Nat.sub_diag, skipn_all in E. cbn [app skipn] in E. destruct (alpha_starts _ _ S2 A2 N2) as [X1 X2].
      destruct (@blanks_unique bl (x ++ tail) b0 b1 B) as [-> <-]; auto; [rewrite starts_app; auto|]. split; [reflexivity|]. rewrite (same_case_length S2), firstn_app, Nat.sub_diag, firstn_all, firstn_O, app_nil_r. reflexivity. }
    destruct (bytes_eqb (map lower k1) (map lower (firstn (List.length k1) t))) eqn:E1; [|right; intros u bl x tail ET S1 S2 B; exfalso; destruct (D _ _ _ _ ET S1 S2 B) as (-> & _); unfold same_case in S1; rewrite <- S1, bytes_eqb_refl in E1; discriminate E1].
    destruct (bytes_eqb (map lower k2) (map lower (firstn (List.length k2) b1))) eqn:E2; [|right; intros u bl x tail ET S1 S2 B; exfalso; destruct (D _ _ _ _ ET S1 S2 B) as (_ & _ & ->); unfold same_case in S2; rewrite <- S2, bytes_eqb_refl in E2; discriminate E2].
    destruct (existsb (fun z => byte_eqb z LF) b0) eqn:E3.
    - left. apply existsb_exists in E3 as (z & I & EZ). apply byte_eqb_eq in EZ. subst z. exists (firstn (List.length k1) t), b0, (firstn (List.length k2) b1), (skipn (List.length k2) b1).
      split; [rewrite firstn_skipn, <- E, firstn_skipn; reflexivity|]. apply bytes_eqb_eq in E1. apply bytes_eqb_eq in E2. split; [exact E1|]. split; [exact E2|]. split; [split; [intros ->; destruct I|exact F]|exact I].
    - right. intros u bl x tail ET S1 S2 B I. destruct (D _ _ _ _ ET S1 S2 B) as (_ & -> & _). assert (X : existsb (fun z => byte_eqb z LF) b0 = true) by (apply existsb_exists; exists LF; split; [exact I|apply byte_eqb_refl]). congruence. }
  destruct (K (la "CURRENT") (la "ROW")) as [(u & bl & x & tail & H)|H1]; try reflexivity; try discriminate; [left; exists TOK_CURRENT_ROW, tail, (la "CURRENT"), (la "ROW"), u, bl, x; split; [now left|exact H]|].
  destruct (K (la "CHARACTER") (la "VARYING")) as [(u & bl & x & tail & H)|H2]; try reflexivity; try discriminate; [left; exists TOK_CHARACTER_VARYING, tail, (la "CHARACTER"), (la "VARYING"), u, bl, x; split; [right; now left|exact H]|].
  right. intros c tail (k1 & k2 & u & bl & x & [E|[E|[]]] & ET & S1 & S2 & B & I); injection E as <- <- <-; [exact (H1 _ _ _ _ ET S1 S2 B I)|exact (H2 _ _ _ _ ET S1 S2 B I)].
Qed.
Lemma hides_total t : exists l rest, hides t l rest.
Proof.
  remember (List.length t) as n eqn:EN. assert (L : (List.length t <= n)%nat) by lia. clear EN. revert t L. induction n as [|n IH]; intros t L.
  - destruct t; [|cbn in L; lia]. exists [], []. constructor.
  - destruct (broken_dec t) as [(c & tail & BP)|NP].
    + assert (LT : (List.length tail <= n)%nat). { destruct BP as (k1 & k2 & u & bl & x & _ & E & _ & _ & [NB _] & _). subst t. rewrite !app_length in L. destruct bl; [congruence|]. cbn in L. lia. }
      destruct (IH tail LT) as (l & rest & H). eauto using h_pair.
    + destruct (split_blank t) as (b0 & b1 & E & F & S). destruct (existsb (fun c => byte_eqb c LF) b0) eqn:X.
      * pose proof X as X0. apply existsb_exists in X as (x & IX & EX). apply byte_eqb_eq in EX. subst x. destruct (bytes_eqb b0 [LF]) eqn:E1.
        -- apply bytes_eqb_eq in E1. subst b0. rewrite E. exists [], b1. apply h_line_end. exact S.
        -- assert (NL : b0 <> [LF]) by (intros ->; discriminate E1). assert (LB : (List.length b1 <= n)%nat) by (rewrite E, app_length in L; destruct b0; [destruct IX|]; cbn in L; lia).
           destruct (IH b1 LB) as (l & rest & H). rewrite E. exists l, rest. apply h_blanks; auto. split; [intros ->; destruct IX|exact F].
      * destruct (split_line t) as (c & rest & E2 & F2 & R). assert (NLC : ~ In LF c) by (intro I; pose proof (proj1 (forallb_forall _ _) F2 _ I) as K; discriminate K).
        destruct c as [|d c].
        -- cbn [app] in E2. destruct R as [->|(b & ->)]; [exists [], []; rewrite E2; constructor|]. exfalso. rewrite E2 in E. destruct b0 as [|y b0]; cbn [app] in E; [subst b1; discriminate S|]. injection E as <- _. discriminate X.
        -- assert (LR : (List.length rest <= n)%nat) by (rewrite E2, app_length in L; cbn in L; lia). destruct (IH rest LR) as (l & r & H). rewrite E2 in NP |- *. exists l, r. apply h_text; auto; [discriminate|].
           destruct R as [->|(b & ->)]; [now left|right]. split; [|eauto].
           destruct (existsb (fun x => negb (is_blank x)) (d :: c)) eqn:EC; [reflexivity|exfalso]. assert (FC : forallb is_blank (d :: c) = true).
           { apply forallb_forall. intros x I. destruct (is_blank x) eqn:BX; [reflexivity|]. assert (K : existsb (fun x => negb (is_blank x)) (d :: c) = true) by (apply existsb_exists; exists x; rewrite BX; auto). congruence. }
           assert (K : forall (c b0 : bytes), forallb is_blank c = true -> existsb (fun c => byte_eqb c LF) b0 = false -> b0 ++ b1 = c ++ LF :: b -> False).
           { clear - S. induction c as [|x c IH]; intros [|y b0] FC XB E; cbn [app] in E.
             - subst b1. discriminate S. - injection E as -> _. discriminate XB. - subst b1. cbn [forallb] in FC. apply andb_prop in FC as [FC _]. cbn [starts] in S. congruence.
             - injection E as -> E. cbn [forallb existsb] in *. apply andb_prop in FC as [_ FC]. apply orb_false_elim in XB as [_ XB]. exact (IH _ FC XB E). }
           eapply K; [exact FC|exact X|]. congruence.
Qed.
Lemma hides_NUL t l rest : hides t l rest -> ~ In NUL t -> ~ In NUL rest.
Proof.
  induction 1 as [|rest S|w t l rest W IL NW S H IH|t c tail l rest BP H IH|w t l rest NE NL C NP H IH]; intro N; auto.
  - intro I. apply N. now right.
  - apply IH. apply NUL_app in N. tauto.
  - apply IH. destruct BP as (k1 & k2 & u & bl & x & _ & -> & _). rewrite !NUL_app in N. tauto.
  - apply IH. apply NUL_app in N. tauto.
Qed.

(** ** C65 *)
(** Every comment hides something, and the tokens of an input with a comment are those before the comment, those the comment yields, and those of the text behind it. *)
Theorem C65_comments : forall a t l, ~ In NUL (a ++ la "--" ++ t) -> boundary a (la "--" ++ t) l ->
  (exists l2 rest, hides t l2 rest) /\
  forall l2 rest, hides t l2 rest -> forall l', cores rest l' <-> cores (a ++ la "--" ++ t) (l ++ l2 ++ l').
Proof.
  intros a t l N (buf & S). split; [apply hides_total|]. intros l2 rest H l'. pose proof N as N0. rewrite !NUL_app in N0. destruct N0 as (NA & _ & NT). pose proof (hides_NUL _ _ _ H NT) as NB.
  rewrite <- (lexes_cores _ _ N), <- (lexes_cores _ _ NB), (app_assoc l). pose proof (scans_trans S (scan_dashes buf t)) as S1. rewrite app_nil_r in S1.
  destruct (scan_hides buf _ _ _ H NT) as [K|[E K]].
  - pose proof (scans_trans S1 K) as S2. split; intro L.
    + apply (scans_lexes S2). eapply lexes_any; [lia|exact L|exact NB].
    + destruct (scans_cut _ _ _ _ _ _ _ S2 _ L) as (l3 & EL & L3). apply app_inv_head in EL. subst l3. eapply lexes_any; [lia|exact L3|exact NB].
  - subst rest. pose proof (scans_trans S1 K) as S2. split; intro L.
    + apply (scans_lexes S2). inversion L; subst; try congruence. constructor. exact ST5.
    + destruct (scans_cut _ _ _ _ _ _ _ S2 _ L) as (l3 & EL & L3). apply app_inv_head in EL. subst l3. inversion L3; subst; try congruence. constructor. exact ST1.
Qed.
(** A comment that delivers a token: CURRENT and ROW on two lines; the rest of the second line is still hidden. *)
Example C65_example : hides (la "Current" ++ [LF] ++ la " rows x" ++ [LF] ++ la "SELECT 1") [(TOK_CURRENT_ROW, TVNone)] (la "SELECT 1") /\
  exists l, boundary (la "SELECT 2 ") (la "--" ++ la "Current" ++ [LF] ++ la " rows x" ++ [LF] ++ la "SELECT 1") l.
Proof.
  split.
  - apply (@h_pair _ _ (la "s x" ++ [LF] ++ la "SELECT 1")).
    + exists (la "CURRENT"), (la "ROW"), (la "Current"), ([LF] ++ la " "), (la "row"). repeat split; try reflexivity; try discriminate; now left.
    + apply (@h_text (la "s x") (LF :: la "SELECT 1")); [discriminate| | | |apply h_line_end; reflexivity].
      * intro I. cbn in I. decompose [or] I; try discriminate; contradiction.
      * right. split; [reflexivity|eauto].
      * intros c tail (k1 & k2 & u & bl & x & [E|[E|[]]] & ET & S1 & _); injection E as <- <- <-; (destruct u as [|d u]; [discriminate S1|]); injection ET as <- _; discriminate S1.
  - exists [(TOK_SELECT, TVNone); (TOK_INTVAL, TVInt 2)]. exists []. set (y := la "--" ++ _). change (la "SELECT 2 " ++ y) with (la "SELECT" ++ la " " ++ la "2" ++ la " " ++ y).
    change ([(TOK_SELECT, TVNone); (TOK_INTVAL, TVInt 2)]) with ([(TOK_SELECT, TVNone)] ++ [] ++ [(TOK_INTVAL, TVInt 2)] ++ []).
    eapply scans_trans; [apply scan_select; reflexivity|]. eapply scans_trans; [apply scan_blank; [split; [discriminate|reflexivity]|reflexivity]|].
    eapply scans_trans; [apply scan_integer; vm_compute; reflexivity|]. apply scan_blank; [split; [discriminate|reflexivity]|reflexivity].
Qed.
(** The whole text of the example: CURRENT ROW is delivered from inside the comment. *)
Example C65_tokens : cores (la "SELECT 2 --Current" ++ [LF] ++ la " rows x" ++ [LF] ++ la "SELECT 1") [(TOK_SELECT, TVNone); (TOK_INTVAL, TVInt 2); (TOK_CURRENT_ROW, TVNone); (TOK_SELECT, TVNone); (TOK_INTVAL, TVInt 1); (0, TVNone)].
Proof. eexists. split; vm_compute; reflexivity. Qed.
