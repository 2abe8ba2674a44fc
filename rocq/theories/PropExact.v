(** Properties C48-C51: the exact behaviour of the scanner where the expected one (C11, C13-C15) is not met.  Vocabulary as in PropLex.v. *)
From Verif Require Export Keywords.
From Verif Require Import PropLex ParseProof LexRel LexScan LexWords LexTok.
From Verif Require Import LexCert TableCheck LexScan LexWords LexTok.
From Coq Require Import ZifyBool ZifyNat ZifyN.
Local Open Scope Z_scope.

(** ** C48: the value of an integer literal *)
Definition octal_digit (c : ascii) : bool := (48 <=? bz c) && (bz c <=? 55).
Fixpoint octal_prefix (w : bytes) : bytes := match w with c :: w' => if octal_digit c then c :: octal_prefix w' else [] | [] => [] end.
(** The number a list of digits denotes in a base. *)
Definition number (base : Z) (w : bytes) : Z := fold_left (fun n c => n * base + (bz c - 48)) w 0.
Definition literal_value (w : bytes) : Z := if starts (fun c => byte_eqb c "0"%char) w then number 8 (octal_prefix w) else number 10 w.
Definition integer_token (w : bytes) : Z * tokval := if literal_value w <=? 9223372036854775807 then (TOK_INTVAL, TVInt (literal_value w)) else (64, TVNone).
Lemma digits_value_octal w : forallb is_digit w = true -> forall acc, digits_value 8 acc w = fold_left (fun n c => n * 8 + (bz c - 48)) (octal_prefix w) acc.
Proof.
  induction w as [|c w IH]; intros F acc; [reflexivity|]. cbn [forallb] in F. apply andb_prop in F as [F1 F2]. cbn [digits_value octal_prefix]. rewrite F1. unfold digit_val.
  replace (bz c - 48 <? 8) with (octal_digit c) by (unfold octal_digit, is_digit, in_range in *; lia). cbn [andb]. destruct (octal_digit c); [|reflexivity]. cbn [fold_left]. apply IH. exact F2.
Qed.
Lemma strtoll0_value w : digits w = true -> strtoll0 w = if literal_value w <=? 9223372036854775807 then Some (literal_value w) else None.
Proof.
  intro W. unfold strtoll0, literal_value, number. destruct w as [|c w]; [discriminate W|]. cbn [starts]. destruct (byte_eqb c "0"); [rewrite digits_value_octal by exact W|rewrite digits_value_decimal by exact W]; reflexivity.
Qed.
Theorem C48_integer_value : forall w rest, digits w = true -> starts digit_or_dot rest = false -> reads 1 (w ++ rest) [integer_token w] 1 rest.
Proof.
  intros w rest W S buf. exists buf. unfold integer_token. pose proof (strtoll0_value w W) as E. destruct (literal_value w <=? 9223372036854775807).
  - apply scan_integer; assumption.
  - apply scan_integer_range; assumption.
Qed.
Theorem C48_out_of_range : forall a w rest l buf0 r e, ~ In NUL (a ++ w ++ rest) -> digits w = true -> starts digit_or_dot rest = false ->
  9223372036854775807 < literal_value w -> boundary a (w ++ rest) l -> parse buf0 (a ++ w ++ rest) fresh_env = PRet r e -> e_valid e = false.
Proof.
  intros a w rest l buf0 r e N W S V (buf & SC) P. destruct (e_valid e) eqn:EV; [exfalso|reflexivity]. destruct (tokens_total (a ++ w ++ rest)) as (ts & T & _).
  assert (OR : strtoll0 w = None) by (rewrite (strtoll0_value w W); replace (literal_value w <=? 9223372036854775807) with false by lia; reflexivity).
  pose proof (scans_trans SC (@scan_integer_range buf w rest W S OR)) as S1. pose proof (tokens_lexes T) as LX. rewrite (c_string_id _ N) in LX. destruct (scans_cut _ _ _ _ _ _ _ S1 _ LX) as (l3 & E & _).
  assert (I : In (64, TVNone) (map core ts)) by (rewrite E; apply in_or_app; left; apply in_or_app; right; now left). apply in_map_iff in I as (k & EK & IK).
  apply (valid_known _ _ _ _ _ T P EV k IK). unfold core in EK. injection EK as EK _. unfold sym_of. rewrite EK. vm_compute. reflexivity.
Qed.
Example C48_example : literal_value (la "0175") = 125 /\ literal_value (la "0129") = 10 /\ literal_value (la "09") = 0 /\ literal_value (la "129") = 129 /\
  integer_token (la "09223372036854775808") = (TOK_INTVAL, TVInt 0) /\ integer_token (la "9223372036854775808") = (64, TVNone) /\ integer_token (la "01000000000000000000000") = (64, TVNone).
Proof. repeat split; vm_compute; reflexivity. Qed.

(** ** C49: what a word is read as *)
Lemma keyword_listed r k : In (r, k) keyword_list -> exists c, In (k, c) keywords /\ token_rule r = Some c.
Proof.
  intro I. assert (A : forallb (fun q => existsb (fun p => if bytes_eqb (fst p) (snd q) then opt_eqb (token_rule (fst q)) (Some (snd p)) else false) keywords) keyword_list = true) by (vm_compute; reflexivity).
  rewrite forallb_forall in A. specialize (A _ I). cbn [fst snd] in A. apply existsb_exists in A as ([k' c] & J & E). cbn [fst snd] in E.
  destruct (bytes_eqb k' k) eqn:EK; [|discriminate]. apply bytes_eqb_eq in EK. subst k'. exists c. split; [exact J|]. destruct (token_rule r) as [c'|]; [|discriminate]. cbn [opt_eqb] in E. f_equal. lia.
Qed.
Lemma keyword_words : forallb (fun p => implb ((5 <=? fst p) && (fst p <=? 168)) (existsb (fun q => if (fst q =? fst p) then rx_eqb (snd (snd p)) (Word (snd q)) else false) keyword_list)) flex_rules = true.
Proof. vm_cast_no_check (eq_refl true). Qed.
Lemma keyword_clean : forallb (fun q => forallb (fun c => negb (byte_eqb c NUL)) (snd q)) keyword_list = true.
Proof. vm_compute. reflexivity. Qed.
(** The words the keyword rules match are those of the specification. *)
Lemma is_keyword_spec w : is_keyword w -> exists k c, In (k, c) keywords /\ same_case k w.
Proof.
  intros (r & x & R & I & M). pose proof (proj1 (forallb_forall _ _) keyword_words _ I) as K. cbn [fst snd] in K. replace ((5 <=? r) && (r <=? 168)) with true in K by lia. cbn [implb] in K.
  apply existsb_exists in K as ([r' k] & J & E). cbn [fst snd] in E. destruct (r' =? r) eqn:ER; [|discriminate E]. apply rx_eqb_ok in E. subst x.
  pose proof (proj1 (forallb_forall _ _) keyword_clean _ J) as C. cbn [snd] in C. apply no_nul in C. apply (matches_Word C) in M.
  destruct (keyword_listed _ _ J) as (c & IK & _). eauto.
Qed.
(** Two words that form one token. *)
Definition pairs : list (bytes * bytes * Z) := [(la "CURRENT", la "ROW", TOK_CURRENT_ROW); (la "CHARACTER", la "VARYING", TOK_CHARACTER_VARYING)].
Lemma pair_parts u bl x u' bl' x' y : forallb is_word u = true -> forallb is_word u' = true -> blank bl -> blank bl' -> starts is_blank x = false -> starts is_blank x' = false -> x <> [] -> x' <> [] ->
  u ++ bl ++ x ++ y = u' ++ bl' ++ x' -> u = u' /\ bl = bl' /\ x ++ y = x'.
Proof.
  intros U U' [NE B] [NE' B'] X X' NX NX'. revert u' U'. induction u as [|c u IH]; intros [|d u'] U' E; cbn [app] in E.
  - split; [reflexivity|]. clear NE NE' U U'. revert bl' B' E. induction bl as [|c bl IH]; intros [|d bl'] B' E; cbn [app] in E.
    + auto.
    + exfalso. cbn [forallb] in B'. apply andb_prop in B' as [B' _]. destruct x as [|e x]; [congruence|]. injection E as -> _. cbn [starts] in X. congruence.
    + exfalso. cbn [forallb] in B. apply andb_prop in B as [B _]. destruct x' as [|e x']; [congruence|]. injection E as -> _. cbn [starts] in X'. congruence.
    + injection E as -> E. cbn [forallb] in B, B'. apply andb_prop in B as [_ B]. apply andb_prop in B' as [_ B']. destruct (IH B _ B' E) as [-> ->]. auto.
  - exfalso. destruct bl as [|b bl]; [congruence|]. injection E as -> _. cbn [forallb] in B, U'. apply andb_prop in B as [B _]. apply andb_prop in U' as [U' _]. exact (blank_word B U').
  - exfalso. destruct bl' as [|b bl']; [congruence|]. injection E as -> _. cbn [forallb] in B', U. apply andb_prop in B' as [B' _]. apply andb_prop in U as [U _]. exact (blank_word B' U).
  - injection E as -> E. cbn [forallb] in U, U'. apply andb_prop in U as [_ U]. apply andb_prop in U' as [_ U']. destruct (IH U _ U' E) as (-> & -> & ->). auto.
Qed.
Lemma alpha_starts a x : same_case a x -> forallb is_alpha a = true -> a <> [] -> starts is_blank x = false /\ x <> [].
Proof.
  intros E F NE. pose proof (alpha_chars_word E F) as W. destruct x as [|c x]; [destruct a; [congruence|discriminate E]|]. split; [|discriminate]. cbn [starts]. cbn [forallb] in W. apply andb_prop in W as [W _].
  destruct (is_blank c) eqn:B; [|reflexivity]. destruct (blank_word B W).
Qed.
Lemma scan_pair buf w bl x tail k1 k2 c : In (k1, k2, c) pairs -> same_case k1 w -> blank bl -> same_case k2 x -> scans 1 buf (w ++ bl ++ x ++ tail) [(c, TVNone)] 1 buf tail.
Proof.
  intros I S1 B S2.
  assert (Q : exists r, (r = 169 /\ k1 = la "CURRENT" /\ k2 = la "ROW" \/ r = 170 /\ k1 = la "CHARACTER" /\ k2 = la "VARYING") /\ token_rule r = Some c /\ 0 < c).
  { destruct I as [E|[E|[]]]; injection E as <- <- <-; [exists 169|exists 170]; (split; [auto|split; [vm_compute; reflexivity|reflexivity]]). }
  destruct Q as (r & Q & TR & CP). assert (R : 169 <= r <= 170) by (destruct Q as [(-> & _)|(-> & _)]; lia).
  assert (A : forallb is_alpha k1 = true /\ forallb is_alpha k2 = true /\ k1 <> [] /\ k2 <> []) by (destruct Q as [(_ & -> & ->)|(_ & -> & ->)]; repeat split; try reflexivity; discriminate).
  destruct A as (A1 & A2 & N1 & N2). pose proof (alpha_chars_word S1 A1) as WW. destruct (alpha_starts _ _ S2 A2 N2) as [X1 X2]. destruct (alpha_starts _ _ S1 A1 N1) as [_ WN].
  assert (WORD : word w = true). { rewrite <- (word_case S1). destruct Q as [(_ & -> & _)|(_ & -> & _)]; reflexivity. }
  set (p := w ++ bl ++ x). replace (w ++ bl ++ x ++ tail) with (p ++ tail) by (unfold p; rewrite <- !app_assoc; reflexivity).
  change 1 with (lx_start (mkLex 1 buf (user_action p pos0))) at 2. change buf with (lx_buf (mkLex 1 buf (user_action p pos0))) at 2.
  assert (NB : forallb is_word p = false).
  { unfold p. rewrite !forallb_app. destruct B as [NE B]. destruct bl as [|b bl]; [congruence|]. cbn [forallb] in *. apply andb_prop in B as [B _]. destruct (is_word b) eqn:WB; [destruct (blank_word B WB)|]. cbn [andb]. apply andb_false_r. }
  assert (ONLY : forall y r', matched (active 1) r' (p ++ y) -> (r' = 169 \/ r' = 170)).
  { intros y r' M. assert (EW : exists d w0, w = d :: w0) by (destruct w; [congruence|eauto]). destruct EW as (d & w0 & EW).
    assert (K : letter_rules r' = true \/ single r' = true /\ (w0 ++ bl ++ x) ++ y = []).
    { unfold p in M. rewrite EW in M. cbn [app] in M. eapply by_first_ok; [exact letters_first| | |exact M].
      - intros ->. apply (word_nul WORD). rewrite EW. now left.
      - rewrite EW in WORD. cbn [word] in WORD. apply andb_prop in WORD as [W _]. exact W. }
    destruct K as [K|[_ K]]; [|exfalso; apply app_eq_nil in K as [K _]; apply app_eq_nil in K as [_ K]; apply app_eq_nil in K as [K _]; destruct B; contradiction].
    unfold letter_rules in K. destruct (nonword_rules r') eqn:NW; [unfold nonword_rules in NW; lia|exfalso].
    pose proof (@only_matched is_word nonword_rules 1 r' _ word_all ltac:(lia) NW M) as F. rewrite forallb_app, NB in F. discriminate F. }
  assert (SAME : forall y r', matched (active 1) r' (p ++ y) -> r' = r /\ y = []).
  { intros y r' M. destruct (ONLY _ _ M) as [->| ->]; [apply matched_169 in M|apply matched_170 in M]; destruct M as (u' & bl' & x' & E & T1 & B' & T2); unfold p in E; rewrite <- !app_assoc in E;
      (assert (P := E); apply pair_parts in P; auto;
       [|eapply alpha_chars_word; [exact T1|reflexivity]|eapply alpha_starts; [exact T2|reflexivity|discriminate]|eapply alpha_starts; [exact T2|reflexivity|discriminate]]);
      destruct P as (-> & -> & EX);
      (destruct Q as [(-> & -> & ->)|(-> & -> & ->)]; [|]); try (exfalso; unfold same_case in *; rewrite <- T1 in S1; discriminate S1);
      (split; [reflexivity|]); apply (f_equal (@List.length ascii)) in EX; rewrite app_length in EX; pose proof (same_case_length S2) as L2; pose proof (same_case_length T2) as L3; cbn in L2, L3; (destruct y; [reflexivity|cbn in EX; lia]). }
  apply scans_one with (r := r); [exact ST1|unfold p; destruct w; [congruence|discriminate]| |lia|apply (@run_token r p (mkLex 1 buf pos0) c); [lia|exact TR]|lia].
  apply best_intro.
  - apply rule_matched; [|destruct Q as [(-> & _)|(-> & _)]; vm_compute; reflexivity].
    destruct Q as [(-> & -> & ->)|(-> & -> & ->)]; [rewrite rx_169|rewrite rx_170]; (apply matches_two; [apply no_nul; reflexivity|apply no_nul; reflexivity|]); exists w, bl, x; auto.
  - intros r' M. rewrite <- (app_nil_r p) in M. destruct (SAME _ _ M). lia.
  - intros d v u r' _ M. destruct (SAME _ _ M) as [_ K]. discriminate K.
Qed.
(** Every word (a letter followed by letters, digits, underscores, not continued) is read in one of three ways: a keyword, in any letter case, as its token; the first word
    of a pair together with the blanks and the second word (also if that is only the beginning of a longer word) as the token of the pair; anything else as an identifier
    with exactly this name. *)
Theorem C49_words : forall w rest, word w = true -> starts is_word rest = false ->
  (forall k c, In (k, c) keywords -> same_case k w -> reads 1 (w ++ rest) [(c, TVNone)] 1 rest) /\
  (forall k1 k2 c bl x tail, In (k1, k2, c) pairs -> same_case k1 w -> rest = bl ++ x ++ tail -> blank bl -> same_case k2 x -> reads 1 (w ++ rest) [(c, TVNone)] 1 tail) /\
  ((forall k c, In (k, c) keywords -> ~ same_case k w) ->
   (forall k1 k2 c bl x tail, In (k1, k2, c) pairs -> same_case k1 w -> rest = bl ++ x ++ tail -> blank bl -> ~ same_case k2 x) ->
   reads 1 (w ++ rest) [(TOK_IDENTIFIER, TVStr w)] 1 rest).
Proof.
  intros w rest W S. split; [|split].
  - intros k c I E buf. exists buf. apply keyword_rule in I as (r & I & TR). eapply scan_keyword; eassumption.
  - intros k1 k2 c bl x tail I E1 -> B E2 buf. exists buf. eapply scan_pair; eassumption.
  - intros NK NP buf. exists buf. apply scan_identifier; auto.
    + intro K. apply is_keyword_spec in K as (k & c & I & E). exact (NK _ _ I E).
    + intros (bl & x & tail & -> & B & [[E1 E2]|[E1 E2]]).
      * refine (NP (la "CURRENT") (la "ROW") TOK_CURRENT_ROW bl x tail _ _ eq_refl B _); [now left|apply same_case_sym; exact E1|apply same_case_sym; exact E2].
      * refine (NP (la "CHARACTER") (la "VARYING") TOK_CHARACTER_VARYING bl x tail _ _ eq_refl B _); [right; now left|apply same_case_sym; exact E1|apply same_case_sym; exact E2].
Qed.
Example C49_example : word (la "Current") = true /\ starts is_word (la "  rowid") = false /\ same_case (la "CURRENT") (la "Current") /\ la "  rowid" = la "  " ++ la "row" ++ la "id" /\ blank (la "  ") /\ same_case (la "ROW") (la "row") /\
  word (la "selects") = true /\ (forall k c, In (k, c) keywords -> ~ same_case k (la "selects")).
Proof.
  repeat split; try reflexivity; try discriminate. intros k c I E. assert (A : forallb (fun p => negb (bytes_eqb (map lower (fst p)) (map lower (la "selects")))) keywords = true) by (vm_compute; reflexivity).
  pose proof (proj1 (forallb_forall _ _) A _ I) as K. cbn [fst] in K. unfold same_case in E. rewrite E, bytes_eqb_refl in K. discriminate K.
Qed.

(** ** C50: where a comment ends *)
(** The rest of the input behind a comment, [t] being what follows the two dashes.  A line end finishes the comment if the next line does not begin with a blank, a tab or
    an empty line, and the line it ends has a character that is not a blank (or is the first line and has no character at all). *)
Fixpoint skip_comment (text : bool) (t : bytes) : bytes :=
  match t with
  | [] => []
  | c :: t' => if byte_eqb c LF then (if text && negb (starts is_blank t') then t' else skip_comment false t') else skip_comment (text || negb (is_blank c)) t'
  end.
Definition behind_comment (t : bytes) : bytes :=
  match t with c :: t' => if byte_eqb c LF && negb (starts is_blank t') then t' else skip_comment false t | [] => [] end.
(** No pair of [pairs] has a line end between its words. *)
Definition no_split_pair (t : bytes) : Prop := forall a u bl x tail k1 k2 c, t = a ++ u ++ bl ++ x ++ tail -> In (k1, k2, c) pairs -> same_case k1 u -> same_case k2 x -> blank bl -> ~ In LF bl.
Lemma no_split_skip a b : no_split_pair (a ++ b) -> no_split_pair b.
Proof. intros N a' u bl x tail k1 k2 c ->. apply (N (a ++ a') u bl x tail). rewrite <- app_assoc. reflexivity. Qed.
Lemma no_split_keyword c b : no_split_pair (c ++ LF :: b) -> ~ is_keyword_pair c b.
Proof.
  intros N (bl & u & x & tail & E & B & I & K). destruct K as [[S1 S2]|[S1 S2]].
  - exact (N [] u bl x tail (la "CURRENT") (la "ROW") TOK_CURRENT_ROW E (or_introl eq_refl) (same_case_sym S1) (same_case_sym S2) B I).
  - exact (N [] u bl x tail (la "CHARACTER") (la "VARYING") TOK_CHARACTER_VARYING E (or_intror (or_introl eq_refl)) (same_case_sym S1) (same_case_sym S2) B I).
Qed.
Lemma split_line t : exists c rest, t = c ++ rest /\ forallb not_LF c = true /\ (rest = [] \/ exists b, rest = LF :: b).
Proof.
  induction t as [|d t (c & rest & -> & F & R)]; [exists [], []; auto|]. destruct (byte_eqb d LF) eqn:E.
  - apply byte_eqb_eq in E. subst d. exists [], (LF :: c ++ rest). split; [reflexivity|]. split; [reflexivity|]. right. eauto.
  - exists (d :: c), rest. split; [reflexivity|]. split; [|exact R]. cbn [forallb]. unfold not_LF at 1. rewrite E. exact F.
Qed.
Lemma split_blank t : exists b0 b1, t = b0 ++ b1 /\ forallb is_blank b0 = true /\ starts is_blank b1 = false.
Proof. induction t as [|c b IH]; [exists [], []; auto|]. destruct (is_blank c) eqn:E; [|exists [], (c :: b); auto]. destruct IH as (b0 & b1 & -> & F & G). exists (c :: b0), b1. cbn [app forallb]. rewrite E. auto. Qed.
Lemma skip_line c : forallb not_LF c = true -> forall text rest, skip_comment text (c ++ rest) = skip_comment (text || existsb (fun x => negb (is_blank x)) c) rest.
Proof.
  induction c as [|d c IH]; intros F text rest; [cbn [existsb app]; rewrite orb_false_r; reflexivity|]. cbn [forallb] in F. apply andb_prop in F as [F1 F2]. unfold not_LF in F1. cbn [app skip_comment existsb].
  destruct (byte_eqb d LF); [discriminate F1|]. rewrite IH by exact F2. rewrite orb_assoc. reflexivity.
Qed.
Lemma skip_blanks b0 : forallb is_blank b0 = true -> forall b1, skip_comment false (b0 ++ b1) = skip_comment false b1.
Proof.
  induction b0 as [|d b0 IH]; intros F b1; [reflexivity|]. cbn [forallb] in F. apply andb_prop in F as [F1 F2]. cbn [app skip_comment]. rewrite F1. destruct (byte_eqb d LF); cbn [andb negb orb]; apply IH; exact F2.
Qed.
(** Blanks with a line end in a comment. *)
Definition blank_rules5 (r : Z) : bool := (r =? 4) || (r =? 2) || (r =? 3).
Lemma blank_first5 : by_first (active 5) is_blank blank_rules5 = true. Proof. vm_cast_no_check (eq_refl true). Qed.
Lemma scan_blank_lines buf w rest : blank w -> starts is_blank rest = false -> In LF w -> w <> [LF] -> scans 5 buf (w ++ rest) [] 5 buf rest.
Proof.
  intros W SR IL NL. change 5 with (lx_start (mkLex 5 buf (user_action w pos0))) at 2. change buf with (lx_buf (mkLex 5 buf (user_action w pos0))) at 2. pose proof W as [NE F].
  apply scans_one_skip with (r := 4); [exact ST5|exact NE| |lia|reflexivity]. assert (EW : exists d w0, w = d :: w0) by (destruct w; [congruence|eauto]). destruct EW as (d & w0 & EW).
  assert (D : is_blank d = true) by (rewrite EW in F; cbn [forallb] in F; apply andb_prop in F as [F _]; exact F). assert (ND : d <> NUL) by (intros ->; discriminate D).
  assert (TWO : w0 <> []) by (intros ->; rewrite EW in IL; destruct IL as [->|[]]; congruence).
  assert (ONLY : forall y r', matched (active 5) r' (w ++ y) -> r' = 4).
  { intros y r' M. pose proof M as M0. rewrite EW in M. cbn [app] in M. destruct (@by_first_ok (active 5) _ _ _ r' _ blank_first5 ND D M) as [K|[_ K]]; [|exfalso; apply TWO; destruct w0; [reflexivity|discriminate K]].
    unfold blank_rules5 in K. assert (R : r' = 2 \/ r' = 3 \/ r' = 4) by lia. destruct R as [->|[->|R]]; [exfalso|exfalso|exact R].
    - apply matched_rule in M0 as [M0 _]. rewrite rx_2 in M0. apply matches_star_cls in M0. rewrite forallb_app in M0. apply andb_prop in M0 as [M0 _]. pose proof (proj1 (forallb_forall _ _) M0 _ IL) as K2. vm_compute in K2. discriminate K2.
    - apply matched_rule in M as [M _]. rewrite rx_3 in M. apply matches_Chr in M; [|discriminate]. injection M as _ M. apply app_eq_nil in M as [M _]. contradiction. }
  apply best_intro.
  - apply rule_matched; [rewrite rx_4; apply matches_blanks; exact W|rewrite where_4; reflexivity].
  - intros r' M. rewrite <- (app_nil_r w) in M. rewrite (ONLY _ _ M). lia.
  - intros c v u r' -> M. pose proof (ONLY _ _ M) as ->. apply matched_rule in M as [M _]. rewrite rx_4 in M. apply matches_blanks in M as [_ M]. cbn [starts] in SR. rewrite forallb_app in M. cbn [forallb] in M. rewrite SR, andb_false_r in M. discriminate M.
Qed.
Definition comment_scans (buf t rest : bytes) : Prop := scans 5 buf t [] 1 buf rest \/ rest = [] /\ scans 5 buf t [] 5 buf [].
Lemma comment_scans_after buf t t' rest : scans 5 buf t [] 5 buf t' -> comment_scans buf t' rest -> comment_scans buf t rest.
Proof. intros S [K|[-> K]]; [left|right; split; [reflexivity|]]; exact (scans_trans S K). Qed.
Lemma scan_skip_comment n : forall buf t, (List.length t <= n)%nat -> ~ In NUL t -> no_split_pair t -> (forall t', t = LF :: t' -> starts is_blank t' = true) -> comment_scans buf t (skip_comment false t).
Proof.
  induction n as [|n IH]; intros buf t L N NS NB.
  - destruct t; [|cbn in L; lia]. right. split; [reflexivity|]. apply sc_refl. exact ST5.
  - destruct t as [|d t0] eqn:ET; [right; split; [reflexivity|]; apply sc_refl; exact ST5|rewrite <- ET in *]. assert (NE : t <> []) by (rewrite ET; discriminate). clear ET d t0.
    destruct (split_blank t) as (b0 & b1 & E & F & S). destruct (existsb (fun c => byte_eqb c LF) b0) eqn:X.
    + (* blanks with a line end *)
      apply existsb_exists in X as (x & IX & EX). apply byte_eqb_eq in EX. subst x. rewrite E, (skip_blanks _ F).
      assert (NL : b0 <> [LF]). { intros ->. cbn [app] in E. specialize (NB _ E). congruence. }
      eapply comment_scans_after; [apply scan_blank_lines; auto; split; [destruct b0; [destruct IX|discriminate]|exact F]|].
      rewrite E in L, N, NS. apply IH.
      * rewrite app_length in L. destruct b0; [destruct IX|]. cbn in L. lia.
      * apply NUL_app in N. tauto.
      * exact (no_split_skip _ _ NS).
      * intros t' ->. discriminate S.
    + destruct (split_line t) as (c & rest & E2 & F2 & R).
      assert (NC : c <> []). { intros ->. cbn [app] in E2. destruct R as [->|(b & ->)]; [congruence|]. rewrite E2 in E. destruct b0 as [|y b0]; cbn [app] in E; [subst b1; discriminate S|]. injection E as <- _. discriminate X. }
      assert (NNC : ~ In NUL c) by (rewrite E2 in N; apply NUL_app in N; tauto).
      destruct R as [->|(b & ->)].
      * rewrite app_nil_r in E2. subst c. right. split; [|rewrite <- (app_nil_r t); apply scan_comment_text; auto].
        rewrite <- (app_nil_r t), skip_line by exact F2. reflexivity.
      * assert (NBC : existsb (fun x => negb (is_blank x)) c = true).
        { destruct (existsb (fun x => negb (is_blank x)) c) eqn:EC; [reflexivity|exfalso]. assert (FC : forallb is_blank c = true).
          { apply forallb_forall. intros x I. destruct (is_blank x) eqn:BX; [reflexivity|]. assert (K : existsb (fun x => negb (is_blank x)) c = true) by (apply existsb_exists; exists x; rewrite BX; auto). congruence. }
          (* then the blanks reach over the line end *)
          assert (K : forall (c b0 : bytes), forallb is_blank c = true -> existsb (fun c => byte_eqb c LF) b0 = false -> b0 ++ b1 = c ++ LF :: b -> False).
          { clear - S. induction c as [|x c IH]; intros [|y b0] FC XB E; cbn [app] in E.
            - subst b1. discriminate S. - injection E as -> _. discriminate XB. - subst b1. cbn [forallb] in FC. apply andb_prop in FC as [FC _]. cbn [starts] in S. congruence.
            - injection E as -> E. cbn [forallb existsb] in *. apply andb_prop in FC as [_ FC]. apply orb_false_elim in XB as [_ XB]. exact (IH _ FC XB E). }
          eapply K; [exact FC|exact X|]. congruence. }
        rewrite E2, skip_line by exact F2. rewrite NBC. cbn [orb skip_comment]. rewrite byte_eqb_refl. cbn [andb].
        rewrite E2 in N, NS. eapply comment_scans_after; [apply scan_comment_text; auto; right; split; [exact NBC|]; exists b; split; [reflexivity|]; apply no_split_keyword; exact NS|].
        apply NUL_app in N as [_ N]. destruct (starts is_blank b) eqn:SB; cbn [negb].
        -- assert (K : comment_scans buf (LF :: b) (skip_comment false (LF :: b))).
           { apply IH; [rewrite E2, app_length in L; destruct c; [congruence|]; cbn in *; lia|exact N|exact (no_split_skip _ _ NS)|]. intros t' ET. injection ET as <-. exact SB. }
           exact K.
        -- left. apply scan_line_end; [exact SB|]. intro I. apply N. now right.
Qed.
Lemma scan_behind_comment buf t : ~ In NUL t -> no_split_pair t -> comment_scans buf t (behind_comment t).
Proof.
  intros N NS. destruct t as [|c t'] eqn:ET; [right; split; [reflexivity|]; apply sc_refl; exact ST5|]. cbn [behind_comment]. destruct (byte_eqb c LF) eqn:E; cbn [andb].
  - apply byte_eqb_eq in E. subst c. destruct (starts is_blank t') eqn:SB; cbn [negb].
    + apply scan_skip_comment with (n := List.length (LF :: t')); auto. intros t2 E2. injection E2 as <-. exact SB.
    + left. apply scan_line_end; [exact SB|]. intro I. apply N. now right.
  - apply scan_skip_comment with (n := List.length (c :: t')); auto. intros t2 E2. injection E2 as -> _. discriminate E.
Qed.
Lemma behind_comment_NUL t : ~ In NUL t -> ~ In NUL (behind_comment t).
Proof.
  assert (K : forall t text, ~ In NUL t -> ~ In NUL (skip_comment text t)).
  { clear. induction t as [|c t IH]; intros text N; [exact N|]. cbn [skip_comment]. assert (NT : ~ In NUL t) by (intro; apply N; now right). destruct (byte_eqb c LF); [destruct (text && negb (starts is_blank t)); auto|auto]. }
  intro N. destruct t as [|c t]; [exact N|]. cbn [behind_comment]. destruct (byte_eqb c LF && negb (starts is_blank t)); [intro; apply N; now right|apply K; exact N].
Qed.
(** Without the two dashes and what they hide the input has the same tokens: the tokens behind a comment are those of the text behind it. *)
Theorem C50_comments : forall a t l, ~ In NUL (a ++ la "--" ++ t) -> no_split_pair t -> boundary a (la "--" ++ t) l ->
  forall l', cores (behind_comment t) l' <-> cores (a ++ la "--" ++ t) (l ++ l').
Proof.
  intros a t l N NS (buf & S) l'. pose proof N as N0. rewrite !NUL_app in N0. destruct N0 as (NA & _ & NT). pose proof (behind_comment_NUL _ NT) as NB.
  rewrite <- (lexes_cores _ _ N), <- (lexes_cores _ _ NB). pose proof (scans_trans S (scan_dashes buf t)) as S1. rewrite app_nil_r in S1.
  destruct (scan_behind_comment buf t NT NS) as [K|[E K]].
  - pose proof (scans_trans S1 K) as S2. rewrite app_nil_r in S2. split; intro L.
    + apply (scans_lexes S2). eapply lexes_any; [lia|exact L|exact NB].
    + destruct (scans_cut _ _ _ _ _ _ _ S2 _ L) as (l3 & EL & L3). apply app_inv_head in EL. subst l3. eapply lexes_any; [lia|exact L3|exact NB].
  - rewrite E. pose proof (scans_trans S1 K) as S2. rewrite app_nil_r in S2. split; intro L.
    + apply (scans_lexes S2). inversion L; subst; try congruence. constructor. exact ST5.
    + destruct (scans_cut _ _ _ _ _ _ _ S2 _ L) as (l3 & EL & L3). apply app_inv_head in EL. subst l3. inversion L3; subst; try congruence. constructor. exact ST1.
Qed.
Example C50_example : behind_comment (la " note" ++ [LF] ++ la " 2" ++ [LF; LF] ++ la " " ++ [LF] ++ la "y" ++ [LF] ++ la "SELECT 1") = la "SELECT 1" /\
  behind_comment (LF :: la "SELECT 1") = la "SELECT 1" /\ behind_comment (la "x" ++ [LF] ++ la "SELECT 1") = la "SELECT 1" /\ behind_comment (la " " ++ [LF] ++ la "SELECT 1") = [] /\
  no_split_pair (la " note" ++ [LF] ++ la ", 2").
Proof.
  repeat split; try (vm_compute; reflexivity). intros a u bl x tail k1 k2 c E I S1 S2 B IL.
  assert (K : exists p q r, (la " note" ++ [LF] ++ la ", 2")%list = p ++ q :: r /\ (q = "c" \/ q = "C")%char).
  { assert (Q : exists d u', u = d :: u' /\ (d = "c" \/ d = "C")%char).
    { destruct I as [I|[I|[]]]; injection I as <- <- <-; (destruct u as [|d u]; [discriminate S1|]; exists d, u; split; [reflexivity|]); unfold same_case in S1; cbn [map la] in S1; injection S1 as S1 _; symmetry in S1;
        (destruct (is_alpha d) eqn:AD; [|unfold lower in S1]); destruct d as [[] [] [] [] [] [] [] []]; vm_compute in S1; try discriminate S1; auto. }
    destruct Q as (d & u' & -> & Q). exists a, d, (u' ++ bl ++ x ++ tail). split; [exact E|exact Q]. }
  destruct K as (p & q & r & E2 & Q). assert (IQ : In q (la " note" ++ [LF] ++ la ", 2")%list) by (rewrite E2; apply in_or_app; right; now left). clear - IQ Q. cbn in IQ. destruct Q as [->| ->]; repeat (destruct IQ as [IQ|IQ]; [discriminate IQ|]); exact IQ.
Qed.

(** ** C51: operators *)
(** The operators and their tokens. *)
Definition operators : list (bytes * Z) := Eval vm_compute in
  [(la "==", TOK_EQUALS); (la "!=", TOK_NOTEQUALS); (la "<>", TOK_NOTEQUALS); (la "<=", TOK_LESSEQ); (la ">=", TOK_GREATEREQ); (la "||", TOK_CONCAT)]
  ++ map (fun c => ([c], bz c)) (la "-+*/(){},.;<>=^%:?[]|").
(** What an operator may be the beginning of: a longer operator, a comment, the most negative integer, a number. *)
Definition longer (w : bytes) : Prop :=
  In w (map fst operators) \/ w = la "--" \/ w = la "-9223372036854775808" \/ exists d, is_digit d = true /\ w = ["."%char; d].
Definition continues (w : bytes) (d : ascii) : bool :=
  existsb (fun p => bytes_eqb (fst p) (w ++ [d])) operators || bytes_eqb w (la "-") && (byte_eqb d "-" || byte_eqb d "9") || bytes_eqb w (la ".") && is_digit d.
Lemma ends_checked : forallb (fun p => forallb (fun z => if continues (fst p) (byte z) then true else match steps (byte z) (after (active 1) (fst p)) with [] => true | _ => false end) (zrange 255 1)) op_list = true.
Proof. vm_cast_no_check (eq_refl true). Qed.
Lemma same_case_plain k : forall w, same_case k w -> forallb (fun c => negb (is_alpha c)) k = true -> k = w.
Proof.
  induction k as [|c k IH]; intros [|d w] E F; try discriminate E; [reflexivity|]. unfold same_case in E. cbn [map] in E. injection E as E1 E2. cbn [forallb] in F. apply andb_prop in F as [F1 F2]. f_equal; [|apply IH; assumption].
  assert (A1 : is_upper c = true -> is_alpha c = true) by (clear; destruct c as [[] [] [] [] [] [] [] []]; auto).
  assert (A2 : is_upper d = true -> is_alpha (lower d) = true) by (clear; destruct d as [[] [] [] [] [] [] [] []]; auto).
  assert (LC : lower c = c) by (unfold lower; destruct (is_upper c); [rewrite A1 in F1 by reflexivity; discriminate F1|reflexivity]). rewrite LC in E1.
  destruct (is_upper d) eqn:U; [rewrite E1, A2 in F1 by reflexivity; discriminate F1|]. unfold lower in E1. rewrite U in E1. exact E1.
Qed.
Lemma minus_9 : among (fun r => r =? 180) (fun _ => false) (after (active 1) (la "-9")) = true. Proof. vm_cast_no_check (eq_refl true). Qed.
Lemma rx_180 : rule_rx 180 = Word (la "-9223372036854775808"). Proof. vm_compute. reflexivity. Qed.
Lemma operator_rule w c : In (w, c) operators -> exists r, In (w, (r, c)) op_list.
Proof.
  intro I. assert (A : forallb (fun p => existsb (fun q => if bytes_eqb (fst q) (fst p) then snd (snd q) =? snd p else false) op_list) operators = true) by (vm_compute; reflexivity).
  pose proof (proj1 (forallb_forall _ _) A _ I) as K. apply existsb_exists in K as ([w' [r c']] & J & E). cbn [fst snd] in E. destruct (bytes_eqb w' w) eqn:EW; [|discriminate]. apply bytes_eqb_eq in EW. subst w'. assert (c' = c) by lia. subst c'. eauto.
Qed.
Lemma scan_op_exact buf w r c rest : In (w, (r, c)) op_list -> (forall d v u r', rest = d :: v ++ u -> ~ matched (active 1) r' (w ++ d :: v)) -> scans 1 buf (w ++ rest) [(c, TVNone)] 1 buf rest.
Proof.
  intros I SR. pose proof (proj1 (forallb_forall _ _) ops_ok _ I) as K. unfold op_ok in K. cbn [fst snd] in K. assert (ST : is_start 1) by (left; reflexivity).
  do 6 (apply andb_prop in K as [K ?K]). destruct (run_rule r w (mkLex 1 [] pos0)) as [|c1 [] s1] eqn:RR; try discriminate. apply andb_prop in K0 as [K0 K6]. assert (c1 = c) by lia. subst c1.
  assert (FN : first_nullable (after (active 1) w) = Some r) by (destruct (first_nullable (after (active 1) w)); cbn in K; [f_equal; lia|discriminate]).
  assert (R187 : r <> 187). { intros ->. pose proof (first_matched FN) as M. apply matched_rule in M as [_ [M|M]]; [lia|]. vm_compute in M. discriminate M. }
  destruct (@run_rule_buf r w 1 [] pos0 buf pos0 _ _ _ RR R187) as (s2 & E2 & ES & EB).
  assert (S1 : lx_start s2 = 1) by lia. rewrite <- S1 at 2. rewrite <- EB at 2. apply scans_one with (r := r); [exact ST|destruct w; discriminate| |lia|exact E2|lia].
  apply best_of_first; [exact ST|exact FN|]. exact SR.
Qed.
(** Every operator is read as its token unless the text goes on to something longer. *)
Theorem C51_operators : forall w c rest, ~ In NUL rest -> In (w, c) operators ->
  (forall x tail, longer x -> w ++ rest = x ++ tail -> (List.length x <= List.length w)%nat) -> reads 1 (w ++ rest) [(c, TVNone)] 1 rest.
Proof.
  intros w c rest N I NL buf. exists buf. apply operator_rule in I as (r & I). eapply scan_op_exact; [exact I|]. intros d v u r' -> M.
  assert (ND : d <> NUL) by (intros ->; apply N; now left). pose proof (proj1 (forallb_forall _ _) ends_checked _ I) as K. cbn [fst] in K.
  pose proof (@all_bytes (fun d => if continues w d then true else match steps d (after (active 1) w) with [] => true | _ => false end) K d ND) as K2. cbn beta in K2. clear K.
  rewrite <- after_ok in M. destruct (continues w d) eqn:CO.
  - unfold continues in CO. apply orb_prop in CO as [CO|CO]; [apply orb_prop in CO as [CO|CO]|].
    + apply existsb_exists in CO as ([w' c'] & J & E). cbn [fst] in E. apply bytes_eqb_eq in E. subst w'. specialize (NL (w ++ [d]) (v ++ u)). rewrite app_length in NL. cbn [List.length] in NL.
      assert (List.length w + 1 <= List.length w)%nat; [|lia]. apply NL; [left; apply in_map_iff; exists (w ++ [d], c'); auto|rewrite <- app_assoc; reflexivity].
    + apply andb_prop in CO as [EW CO]. apply bytes_eqb_eq in EW. subst w. apply orb_prop in CO as [CO|CO]; apply byte_eqb_eq in CO; subst d.
      * specialize (NL (la "--") (v ++ u) (or_intror (or_introl eq_refl)) eq_refl). cbn in NL. lia.
      * rewrite after_ok in M. pose proof M as M2. change (la "-" ++ "9"%char :: v) with (la "-9" ++ v) in M. rewrite <- after_ok in M. destruct (among_matched minus_9 M) as [R|[R _]]; [|discriminate R]. assert (r' = 180) by lia. subst r'.
        apply matched_rule in M2 as [M2 _]. rewrite rx_180 in M2. apply matches_Word in M2; [|apply no_nul; reflexivity].
        assert (EV : la "-" ++ "9"%char :: v = la "-9223372036854775808") by (symmetry; apply same_case_plain; [exact M2|reflexivity]).
        specialize (NL (la "-9223372036854775808") u). rewrite <- EV in NL. cbn [app List.length la] in NL. assert (S (S (List.length v)) <= 1)%nat; [|lia]. apply NL; [right; right; left; exact EV|reflexivity].
    + apply andb_prop in CO as [EW CO]. apply bytes_eqb_eq in EW. subst w. specialize (NL ["."%char; d] (v ++ u)). cbn [List.length la] in NL. assert (2 <= 1)%nat; [|lia]. apply NL; [right; right; right; eauto|reflexivity].
  - apply steps_ok in M. destruct (steps d (after (active 1) w)); [exact (matched_nil M)|discriminate K2].
Qed.
Example C51_example : In (la "-", 45) operators /\ In (la "<", 60) operators /\ longer (la "<=") /\
  (forall x tail, longer x -> la "-" ++ la "9 FROM t" = x ++ tail -> (List.length x <= 1)%nat).
Proof.
  split; [repeat (first [left; reflexivity|right])|]. split; [repeat (first [left; reflexivity|right])|]. split; [left; cbn; tauto|].
  intros x tail [I|[->|[->|(d & _ & ->)]]] E; try discriminate E.
  apply in_map_iff in I as ([w c] & <- & I). cbn [fst] in *. assert (A : forallb (fun p => (List.length (fst p) <=? 1)%nat || negb (bytes_eqb (fst p) (firstn (List.length (fst p)) (la "-9 FROM t")))) operators = true) by (vm_compute; reflexivity).
  pose proof (proj1 (forallb_forall _ _) A _ I) as K. cbn [fst] in K. apply orb_prop in K as [K|K]; [apply Nat.leb_le in K; exact K|]. change (la "-" ++ la "9 FROM t") with (la "-9 FROM t") in E. rewrite E, firstn_app, firstn_all, Nat.sub_diag, firstn_O, app_nil_r, bytes_eqb_refl in K. discriminate K.
Qed.
