(** How the different kinds of tokens are scanned.  No code of /repo. *)
From Verif Require Export LexWords.
From Verif Require Import TokenCodes LexCert TableCheck.
From Coq Require Import ZifyBool ZifyNat ZifyN.
Local Open Scope Z_scope.
Set Implicit Arguments.
Unset Strict Implicit.

Lemma bz_inj c d : bz c = bz d -> c = d.
Proof. intro E. rewrite <- (byte_bz c), <- (byte_bz d), E. reflexivity. Qed.
Lemma bz_lower c : 65 <= bz c <= 90 /\ bz (lower c) = bz c + 32 \/ (bz c < 65 \/ 90 < bz c) /\ bz (lower c) = bz c.
Proof.
  unfold lower. destruct (is_upper c) eqn:U; unfold is_upper, in_range, bz in *; [|lia]. rewrite N_ascii_embedding by lia. lia.
Qed.
Lemma byte_eqb_neq c d : byte_eqb c d = false -> c <> d.
Proof. intros E ->. unfold byte_eqb in E. rewrite N.eqb_refl in E. discriminate. Qed.
Lemma byte_eqb_refl c : byte_eqb c c = true. Proof. unfold byte_eqb. apply N.eqb_refl. Qed.
Lemma bz_0 c : bz c = 0 <-> c = NUL.
Proof. split; [intro E; apply bz_inj; exact E|intros ->; reflexivity]. Qed.
Lemma matches_Letter c w : c <> NUL -> (matches (Letter c) w <-> exists d, w = [d] /\ lower c = lower d).
Proof.
  intro N. assert (bz c <> 0) by (intro E; apply N, bz_0, E). unfold Letter, Chr. pose proof (bz_lower c) as LC. destruct (is_alpha c) eqn:A; split.
  - inversion 1 as [|n0 l0 d IC| | | | |]; subst. exists d. split; [reflexivity|]. apply bz_inj. pose proof (bz_lower d) as LD. unfold in_class in IC. cbn [existsb fst snd] in IC.
    unfold is_alpha, is_upper, is_lower, in_range in *. lia.
  - intros (d & -> & E). constructor. pose proof (bz_lower d) as LD. rewrite <- E in LD. unfold in_class. cbn [existsb fst snd]. unfold is_alpha, is_upper, is_lower, in_range in *. lia.
  - inversion 1 as [|n0 l0 d IC| | | | |]; subst. exists d. split; [reflexivity|]. unfold in_class in IC. cbn [existsb fst snd] in IC. f_equal. apply bz_inj. lia.
  - intros (d & -> & E). constructor. apply lower_eq in E; [|exact A]. subst d. unfold in_class. cbn [existsb fst snd]. lia.
Qed.
Lemma matches_Word s : ~ In NUL s -> forall w, matches (Word s) w <-> same_case s w.
Proof.
  induction s as [|c s IH]; intros N w.
  - cbn [Word]. split; [inversion 1; reflexivity|]. destruct w; [constructor|discriminate].
  - assert (NC : c <> NUL) by (intros ->; apply N; now left). assert (NS : ~ In NUL s) by (intro I; apply N; now right). specialize (IH NS).
    assert (G : matches (Cat (Letter c) (Word s)) w <-> same_case (c :: s) w).
    { rewrite matches_cat. split.
      - intros (u & v & -> & M1 & M2). apply (matches_Letter _ NC) in M1 as (d & -> & E). apply IH in M2. unfold same_case in *. cbn [map app]. congruence.
      - destruct w as [|d w]; [discriminate|]. intro E. injection E as E1 E2. exists [d], w. split; [reflexivity|]. split; [apply matches_Letter; eauto|apply IH; exact E2]. }
    destruct s as [|c' s]; [|exact G]. cbn [Word] in *. rewrite <- G. rewrite matches_cat. split; [intro M; exists w, []; rewrite app_nil_r; split; [reflexivity|]; split; [exact M|constructor]|].
    intros (u & v & -> & M1 & M2). inversion M2; subst. rewrite app_nil_r. exact M1.
Qed.
Lemma rx_169 : rule_rx 169 = Cat (Word (la "CURRENT")) (Cat (Plus Blank) (Word (la "ROW"))). Proof. vm_compute. reflexivity. Qed.
Lemma rx_170 : rule_rx 170 = Cat (Word (la "CHARACTER")) (Cat (Plus Blank) (Word (la "VARYING"))). Proof. vm_compute. reflexivity. Qed.
Lemma in_blank c : in_class false [(32, 32); (9, 9); (10, 10)] c = is_blank c.
Proof.
  unfold in_class, is_blank. cbn [existsb fst snd]. assert (E : forall d, byte_eqb c d = (bz c =? bz d)).
  { intro d. unfold byte_eqb, bz. destruct (N.eqb_spec (N_of_ascii c) (N_of_ascii d)); lia. }
  rewrite !E. change (bz SP) with 32. change (bz TAB) with 9. change (bz LF) with 10. lia.
Qed.
Lemma matches_blanks w : matches (Plus Blank) w <-> blank w.
Proof.
  unfold blank. rewrite <- (forallb_ext w in_blank). split; [apply matches_plus_cls|intros [A B]; apply plus_cls_matches; assumption].
Qed.
(** Two words separated by blanks. *)
Definition two_words (a b w : bytes) : Prop := exists u bl v, w = u ++ bl ++ v /\ same_case a u /\ blank bl /\ same_case b v.
Lemma matches_two a b w : ~ In NUL a -> ~ In NUL b -> (matches (Cat (Word a) (Cat (Plus Blank) (Word b))) w <-> two_words a b w).
Proof.
  intros NA NB. unfold two_words. rewrite matches_cat. split.
  - intros (u & v & -> & M1 & M2). apply matches_cat in M2 as (bl & x & -> & M2 & M3). exists u, bl, x. split; [reflexivity|]. rewrite <- (matches_Word NA), <- (matches_Word NB), <- matches_blanks. auto.
  - intros (u & bl & v & -> & E1 & E2 & E3). exists u, (bl ++ v). split; [reflexivity|]. split; [apply (matches_Word NA); exact E1|]. constructor; [apply matches_blanks; exact E2|apply (matches_Word NB); exact E3].
Qed.
Lemma no_nul s : forallb (fun c => negb (byte_eqb c NUL)) s = true -> ~ In NUL s.
Proof. intros F I. pose proof (proj1 (forallb_forall _ _) F _ I) as K. discriminate K. Qed.
Lemma matched_169 s w : matched (active s) 169 w -> two_words (la "CURRENT") (la "ROW") w.
Proof. intro M. apply matched_rule in M as [M _]. rewrite rx_169 in M. apply matches_two in M; [exact M| |]; apply no_nul; reflexivity. Qed.
Lemma matched_170 s w : matched (active s) 170 w -> two_words (la "CHARACTER") (la "VARYING") w.
Proof. intro M. apply matched_rule in M as [M _]. rewrite rx_170 in M. apply matches_two in M; [exact M| |]; apply no_nul; reflexivity. Qed.

(** ** Rules by first byte *)
Definition among (f : Z -> bool) (one : Z -> bool) (l : rules) : bool := forallb (fun p => f (fst p) || (one (fst p) && match snd p with Eps => true | _ => false end)) l.
Lemma among_matched f one l r w : among f one l = true -> matched l r w -> f r = true \/ one r = true /\ w = [].
Proof.
  intros A (x & I & M). pose proof (proj1 (forallb_forall _ _) A _ I) as K. cbn [fst snd] in K. destruct (f r); [now left|]. right. cbn [orb] in K. apply andb_prop in K as [K1 K2]. split; [exact K1|].
  destruct x; try discriminate K2. inversion M. reflexivity.
Qed.
Definition single (r : Z) : bool := (r =? 177) || (r =? 188) || (r =? 189).
Definition letter_rules (r : Z) : bool := (5 <=? r) && (r <=? 170) || (r =? 183).
Definition digit_rules (r : Z) : bool := (r =? 178) || (r =? 181).
Definition dot_rules (r : Z) : bool := (r =? 179).
Definition by_first (l : rules) (P : ascii -> bool) (f : Z -> bool) : bool := forallb (fun z => implb (P (byte z)) (among f single (steps (byte z) l))) (zrange 255 1).
Lemma by_first_ok l P f c r w : by_first l P f = true -> c <> NUL -> P c = true -> matched l r (c :: w) -> f r = true \/ single r = true /\ w = [].
Proof.
  intros B N E M. pose proof (@all_bytes (fun c => implb (P c) (among f single (steps c l))) B c N) as K. cbn beta in K. rewrite E in K. cbn [implb] in K.
  apply (among_matched K). apply steps_ok. exact M.
Qed.
Lemma letters_first   : by_first (active 1) is_alpha letter_rules = true. Proof. vm_cast_no_check (eq_refl true). Qed.
Lemma digits_first   : by_first (active 1) is_digit digit_rules = true. Proof. vm_cast_no_check (eq_refl true). Qed.
Lemma dot_first : by_first (active 1) (fun c => byte_eqb c ".") dot_rules = true. Proof. vm_cast_no_check (eq_refl true). Qed.

Definition starts (P : ascii -> bool) (w : bytes) : bool := match w with c :: _ => P c | [] => false end.
Definition st1 (s : Z) (buf : bytes) : lexst := mkLex s buf pos0.
Lemma scans_one s buf w rest r c v st' : is_start s -> w <> [] -> best (active s) (w ++ rest) r (List.length w) -> 1 <= r <= 189 -> run_rule r w (mkLex s buf pos0) = Ret c v st' -> 0 < c ->
  scans s buf (w ++ rest) [(c, v)] (lx_start st') (lx_buf st') rest.
Proof.
  intros ST NE B R E C. eapply sc_tok with (r := r) (n := List.length w); auto.
  - destruct w; [congruence|discriminate].
  - destruct w; [congruence|]. cbn. lia.
  - rewrite firstn_app, firstn_all, Nat.sub_diag, firstn_O, app_nil_r. exact E.
  - rewrite skipn_app, skipn_all, Nat.sub_diag. cbn [skipn app]. apply sc_refl. pose proof (@run_rule_ok r w (mkLex s buf pos0) ST) as P. rewrite E in P. apply P.
Qed.
Lemma scans_one_skip s buf w rest r st' : is_start s -> w <> [] -> best (active s) (w ++ rest) r (List.length w) -> 1 <= r <= 189 -> run_rule r w (mkLex s buf pos0) = Skip st' ->
  scans s buf (w ++ rest) [] (lx_start st') (lx_buf st') rest.
Proof.
  intros ST NE B R E. eapply sc_skip with (r := r) (n := List.length w); auto.
  - destruct w; [congruence|discriminate].
  - destruct w; [congruence|]. cbn. lia.
  - rewrite firstn_app, firstn_all, Nat.sub_diag, firstn_O, app_nil_r. exact E.
  - rewrite skipn_app, skipn_all, Nat.sub_diag. cbn [skipn app]. apply sc_refl. pose proof (@run_rule_ok r w (mkLex s buf pos0) ST) as P. rewrite E in P. apply P.
Qed.

(** ** Words *)
(** A word as in rule 183. *)
Definition word (w : bytes) : bool := match w with c :: w' => is_alpha c && forallb is_word w' | [] => false end.
Lemma rx_183 : rule_rx 183 = Cat (Cls false [(65, 90); (97, 122)]) (Star (Cls false [(65, 90); (97, 122); (48, 57); (95, 95)])). Proof. vm_compute. reflexivity. Qed.
Lemma in_word c : in_class false [(65, 90); (97, 122); (48, 57); (95, 95)] c = is_word c.
Proof.
  unfold in_class, is_word, is_alpha, is_upper, is_lower, is_digit, in_range. cbn [existsb fst snd]. assert (E : byte_eqb c "_"%char = (bz c =? 95)).
  { unfold byte_eqb, bz. change (N_of_ascii "_") with 95%N. destruct (N.eqb_spec (N_of_ascii c) 95); lia. } rewrite E. lia.
Qed.
Lemma matches_word w : matches (rule_rx 183) w <-> word w = true.
Proof.
  rewrite rx_183. rewrite matches_cat. split.
  - intros (u & v & -> & M1 & M2). inversion M1 as [|n0 l0 c IC| | | | |]; subst. apply matches_star_cls in M2. rewrite (forallb_ext v in_word) in M2. cbn [app word]. rewrite M2, andb_true_r.
    unfold in_class, is_alpha, is_upper, is_lower, in_range in *. cbn [existsb fst snd] in IC. lia.
  - destruct w as [|c w]; [discriminate|]. cbn [word]. intro E. apply andb_prop in E as [E1 E2]. exists [c], w. split; [reflexivity|]. split; [|apply star_cls_matches; rewrite (forallb_ext w in_word); exact E2].
    constructor. unfold in_class, is_alpha, is_upper, is_lower, in_range in *. cbn [existsb fst snd]. lia.
Qed.
Lemma word_chars w : word w = true -> forallb is_word w = true.
Proof. destruct w as [|c w]; [discriminate|]. cbn [word forallb]. intro E. apply andb_prop in E as [E1 E2]. unfold is_word at 1. rewrite E1, E2. reflexivity. Qed.
Lemma blank_word c : is_blank c = true -> is_word c = true -> False.
Proof. intro B. destruct (is_blank_cases B) as [->|[->| ->]]; intro E; discriminate E. Qed.
(** [w] is the first of two words that form one token together with what follows. *)
Definition joined (w rest : bytes) : Prop :=
  exists bl x tail, rest = bl ++ x ++ tail /\ blank bl /\ (same_case w (la "CURRENT") /\ same_case x (la "ROW") \/ same_case w (la "CHARACTER") /\ same_case x (la "VARYING")).
Lemma split_word w c v u bl x : word w = true -> w ++ c :: v = u ++ bl ++ x -> forallb is_word u = true -> blank bl -> is_word c = false -> w = u /\ c :: v = bl ++ x.
Proof.
  intros W E U [NE B] C. apply word_chars in W. revert u E U. induction w as [|d w IH]; intros [|e u] E U; cbn [app] in E.
  - auto.
  - injection E as <- _. cbn [forallb] in U. rewrite C in U. discriminate U.
  - destruct bl as [|b bl]; [congruence|]. injection E as -> _. cbn [forallb] in W, B. apply andb_prop in W as [W _]. apply andb_prop in B as [B _]. destruct (blank_word B W).
  - injection E as -> E. cbn [forallb] in W, U. apply andb_prop in W as [_ W]. apply andb_prop in U as [_ U]. destruct (IH W _ E U) as [-> ->]. auto.
Qed.
Lemma alpha_chars_word a u : same_case a u -> forallb is_alpha a = true -> forallb is_word u = true.
Proof.
  revert u. induction a as [|c a IH]; intros [|d u] E F; try discriminate; [reflexivity|]. injection E as E1 E2. cbn [forallb] in *. apply andb_prop in F as [F1 F2]. rewrite (IH _ E2 F2), andb_true_r.
  unfold is_word. assert (A : is_alpha d = true); [|rewrite A; reflexivity]. destruct (is_alpha d) eqn:A; [reflexivity|]. symmetry in E1. rewrite (lower_eq E1 A) in A. congruence.
Qed.
(** Nothing matches beyond a word that is not continued. *)
Lemma word_end w rest : word w = true -> ~ In NUL w -> starts is_word rest = false -> ~ joined w rest -> forall c v u r', rest = c :: v ++ u -> ~ matched (active 1) r' (w ++ c :: v).
Proof.
  intros W N SR J c v u r' -> M. cbn [starts] in SR. assert (EW : exists d w0, w = d :: w0) by (destruct w; [discriminate|eauto]). destruct EW as (d & w0 & EW).
  assert (K : letter_rules r' = true \/ single r' = true /\ w0 ++ c :: v = []).
  { rewrite EW in M. cbn [app] in M. eapply by_first_ok; [exact letters_first| | |exact M]; [intros ->; apply N; rewrite EW; now left|]. rewrite EW in W. cbn [word] in W. apply andb_prop in W as [W _]. exact W. }
  destruct K as [K|[_ K]]; [|destruct w0; discriminate K]. unfold letter_rules in K.
  destruct (nonword_rules r') eqn:NW.
  - unfold nonword_rules in NW. assert (R : r' = 169 \/ r' = 170) by lia. destruct R as [->| ->]; [apply matched_169 in M|apply matched_170 in M]; destruct M as (x1 & bl & x2 & E & S1 & B & S2);
      (destruct (@split_word _ _ _ _ _ _ W E) as [E1 E2]; [eapply alpha_chars_word; [exact S1|reflexivity]|exact B|exact SR|]); apply J; exists bl, x2, u; (split; [rewrite app_assoc, <- E2; reflexivity|split; [exact B|]]);
      [left|right]; rewrite E1; split; apply same_case_sym; assumption.
  - pose proof (@only_matched is_word nonword_rules 1 r' _ word_all ltac:(lia) NW M) as A. rewrite forallb_app in A. apply andb_prop in A as [_ A]. cbn [forallb] in A. rewrite SR in A. discriminate A.
Qed.
(** An identifier: a word no keyword rule matches. *)
Definition is_keyword (w : bytes) : Prop := exists r x, 5 <= r <= 168 /\ In (r, (Normal, x)) flex_rules /\ matches x w.
Lemma word_nul w : word w = true -> ~ In NUL w.
Proof. intros W I. apply word_chars in W. pose proof (proj1 (forallb_forall _ _) W _ I) as K. discriminate K. Qed.
Lemma word_no_two a b w : word w = true -> ~ two_words a b w.
Proof.
  intros W (u & bl & v & -> & _ & [NE B] & _). apply word_chars in W. rewrite !forallb_app in W. apply andb_prop in W as [_ W]. apply andb_prop in W as [W _]. destruct bl as [|c bl]; [congruence|].
  cbn [forallb] in *. apply andb_prop in W as [W _]. apply andb_prop in B as [B _]. exact (blank_word B W).
Qed.
Definition where_normal (p : Z * (where_ * rx)) : bool := implb ((5 <=? fst p) && (fst p <=? 184)) (where_eqb (fst (snd p)) Normal).
Lemma normal_all : forallb where_normal flex_rules = true.
Proof. vm_cast_no_check (eq_refl true). Qed.
Lemma matched_keyword s r w : 5 <= r <= 168 -> matched (active s) r w -> is_keyword w.
Proof.
  intros R (x & I & M). destruct (active_In I) as (wh & I2 & _). pose proof (proj1 (forallb_forall _ _) normal_all _ I2) as K. unfold where_normal in K. cbn [fst snd] in K.
  exists r, x. split; [exact R|]. split; [|exact M]. replace ((5 <=? r) && (r <=? 184)) with true in K by lia. destruct wh; try discriminate K. exact I2.
Qed.
Lemma where_183 : rule_where 183 = Normal. Proof. vm_compute. reflexivity. Qed.
Lemma scan_identifier buf w rest : word w = true -> ~ is_keyword w -> starts is_word rest = false -> ~ joined w rest ->
  scans 1 buf (w ++ rest) [(TOK_IDENTIFIER, TVStr w)] 1 buf rest.
Proof.
  intros W K SR J. pose proof (word_nul W) as N. change 1 with (lx_start (mkLex 1 buf (user_action w pos0))) at 2. change buf with (lx_buf (mkLex 1 buf (user_action w pos0))) at 2.
  apply scans_one with (r := 183); [left; reflexivity|destruct w; [discriminate W|discriminate]| |lia|reflexivity|reflexivity]. apply best_intro.
  - apply rule_matched; [apply matches_word; exact W|rewrite where_183; reflexivity].
  - intros r' M. assert (EW : exists d w0, w = d :: w0) by (destruct w; [discriminate|eauto]). destruct EW as (d & w0 & EW).
    assert (L : letter_rules r' = true \/ single r' = true /\ w0 = []).
    { rewrite EW in M. eapply by_first_ok; [exact letters_first| | |exact M]; [intros ->; apply N; rewrite EW; now left|]. rewrite EW in W. cbn [word] in W. apply andb_prop in W as [W _]. exact W. }
    destruct L as [L|[L E0]].
    + unfold letter_rules in L. destruct (Z.le_gt_cases 183 r') as [LE|GT]; [exact LE|exfalso]. destruct (Z.le_gt_cases r' 168) as [LE|GT2]; [apply K; apply (@matched_keyword 1 r'); [lia|exact M]|].
      assert (R : r' = 169 \/ r' = 170) by lia. destruct R as [->| ->]; [apply matched_169 in M|apply matched_170 in M]; exact (word_no_two W M).
    + unfold single in L. assert (R : r' = 177 \/ 183 <= r') by lia. destruct R as [->|R]; [exfalso|exact R]. apply matched_rule in M as [M _]. apply rule_177_alpha in M as (c & E & A). rewrite E in W. cbn [word] in W. rewrite A in W. discriminate W.
  - intros c v u r'. apply word_end; assumption.
Qed.
(** A keyword in any letter case. *)
Definition keyword_list : list (Z * bytes) := Eval vm_compute in
  let fix text (x : rx) : bytes := match x with Cls _ ((lo, _) :: _) => [byte lo] | Cat a b => text a ++ text b | _ => [] end in
  map (fun p => (fst p, text (snd (snd p)))) (filter (fun p => (5 <=? fst p) && (fst p <=? 168)) flex_rules).
Definition keyword_ok (p : Z * bytes) : bool :=
  match first_nullable (after (active 1) (snd p)), token_rule (fst p) with Some r, Some c => (r =? fst p) && (0 <? c) && word (snd p) && negb (bytes_eqb (map lower (snd p)) (map lower (la "CURRENT"))) && negb (bytes_eqb (map lower (snd p)) (map lower (la "CHARACTER"))) | _, _ => false end.
Lemma keywords_ok : forallb keyword_ok keyword_list = true.
Proof. vm_cast_no_check (eq_refl true). Qed.
Lemma run_token r t st c : 5 <= r <= 176 -> token_rule r = Some c -> run_rule r t st = Ret c TVNone (mkLex (lx_start st) (lx_buf st) (user_action t (lx_pos st))).
Proof. intros R E. unfold run_rule. rule_cases; try (exfalso; lia). rewrite E. reflexivity. Qed.
Lemma bytes_eqb_refl a : bytes_eqb a a = true.
Proof. induction a as [|c a IH]; [reflexivity|]. cbn [bytes_eqb]. rewrite byte_eqb_refl. exact IH. Qed.
Lemma best_of_first s w rest r : is_start s -> first_nullable (after (active s) w) = Some r -> (forall c v u r', rest = c :: v ++ u -> ~ matched (active s) r' (w ++ c :: v)) -> best (active s) (w ++ rest) r (List.length w).
Proof.
  intros ST F E. apply best_intro; [apply first_matched; exact F| |exact E]. intros r' M.
  pose proof (first_nullable_ok (after (active s) w)) as K. rewrite F in K. destruct K as [_ K]. apply K; [|rewrite after_ok, app_nil_r; exact M].
  generalize (active_sorted ST). generalize (active s). clear. induction w as [|c w IH]; intros l S; [exact S|]. cbn [after]. apply IH. apply steps_sorted. exact S.
Qed.
Lemma keyword_range : forallb (fun p => (5 <=? fst p) && (fst p <=? 168)) keyword_list = true. Proof. vm_compute. reflexivity. Qed.
Lemma same_alpha c d : lower c = lower d -> is_alpha c = is_alpha d.
Proof.
  intro E. destruct (is_alpha c) eqn:A, (is_alpha d) eqn:B; try reflexivity.
  - symmetry in E. rewrite (lower_eq E B) in B. congruence.
  - rewrite (lower_eq E A) in A. congruence.
Qed.
Lemma same_is_word c d : lower c = lower d -> is_word c = is_word d.
Proof.
  intro E. unfold is_word. pose proof (same_alpha E) as A. rewrite A. destruct (is_alpha d) eqn:B; [reflexivity|]. rewrite (lower_eq E A). reflexivity.
Qed.
Lemma word_case a b : same_case a b -> word a = word b.
Proof.
  destruct a as [|c a], b as [|d b]; intro E; try discriminate; [reflexivity|]. injection E as E1 E2. cbn [word]. rewrite (same_alpha E1). f_equal.
  revert b E2. induction a as [|c' a IH]; intros [|d' b] E; try discriminate; [reflexivity|]. injection E as E3 E4. cbn [forallb]. rewrite (same_is_word E3). f_equal. auto.
Qed.
Lemma scan_keyword buf r k w c rest : In (r, k) keyword_list -> same_case k w -> token_rule r = Some c -> starts is_word rest = false -> scans 1 buf (w ++ rest) [(c, TVNone)] 1 buf rest.
Proof.
  intros I E TR SR. pose proof (proj1 (forallb_forall _ _) keywords_ok _ I) as K. unfold keyword_ok in K. cbn [fst snd] in K. rewrite TR in K.
  pose proof (proj1 (forallb_forall _ _) keyword_range _ I) as R. cbn [fst] in R. assert (ST : is_start 1) by (left; reflexivity).
  destruct (first_nullable (after (active 1) k)) as [r0|] eqn:F; [|discriminate K]. do 4 (apply andb_prop in K as [K ?K]). assert (r0 = r) by lia. subst r0.
  assert (W : word w = true) by (rewrite <- (word_case E); assumption).
  change 1 with (lx_start (mkLex 1 buf (user_action w pos0))) at 2. change buf with (lx_buf (mkLex 1 buf (user_action w pos0))) at 2.
  apply scans_one with (r := r); [exact ST|destruct w; discriminate| |lia|apply (@run_token r w (mkLex 1 buf pos0) c); [lia|exact TR]|lia].
  apply best_lower with (rest := k ++ rest); [apply same_case_app; [exact E|apply same_case_refl]|]. rewrite <- (same_case_length E).
  apply best_of_first; [exact ST|exact F|]. intros d v u r' ER M. apply (@matched_lower 1 r' _ (w ++ d :: v)) in M; [|apply same_case_app; [exact E|apply same_case_refl]].
  revert M. apply (@word_end w rest W (word_nul W) SR) with (u := u); [|exact ER].
  intros (bl & x & tail & _ & _ & [[J _]|[J _]]); unfold same_case in *; rewrite <- E in J; rewrite J, bytes_eqb_refl in *; discriminate.
Qed.
(** Operators of one or two characters, followed by a blank or the end. *)
Definition op_list : list (bytes * (Z * Z)) := Eval vm_compute in
  [(la "==", (171, TOK_EQUALS)); (la "!=", (172, TOK_NOTEQUALS)); (la "<>", (173, TOK_NOTEQUALS));
   (la "<=", (174, TOK_LESSEQ)); (la ">=", (175, TOK_GREATEREQ)); (la "||", (176, TOK_CONCAT))]
  ++ map (fun c => ([c], (177, bz c))) (la "-+*/(){},.;<>=^%:?[]|").
Definition op_ok (p : bytes * (Z * Z)) : bool :=
  opt_eqb (first_nullable (after (active 1) (fst p))) (Some (fst (snd p))) && (1 <=? fst (snd p)) && (fst (snd p) <=? 189) && (0 <? snd (snd p)) &&
  match after (active 1) (fst p ++ [SP]), after (active 1) (fst p ++ [TAB]), after (active 1) (fst p ++ [LF]) with [], [], [] => true | _, _, _ => false end &&
  match fst p with [] => false | _ => true end &&
  match run_rule (fst (snd p)) (fst p) (mkLex 1 [] pos0) with Ret c TVNone st => (c =? snd (snd p)) && (lx_start st =? 1) | _ => false end.
Lemma ops_ok : forallb op_ok op_list = true.
Proof. vm_cast_no_check (eq_refl true). Qed.
Definition ends_here (rest : bytes) : Prop := rest = [] \/ starts is_blank rest = true.
Lemma no_longer l w rest : (forall c, is_blank c = true -> after l (w ++ [c]) = []) -> ends_here rest -> forall c v u r', rest = c :: v ++ u -> ~ matched l r' (w ++ c :: v).
Proof.
  intros A E c v u r' -> M. destruct E as [E|E]; [discriminate|]. cbn [starts] in E. change (c :: v) with ([c] ++ v) in M. rewrite app_assoc in M. rewrite <- after_ok, (A c E) in M. exact (matched_nil M).
Qed.
Lemma run_rule_buf r t s buf p buf' p' c v st : run_rule r t (mkLex s buf p) = Ret c v st -> r <> 187 -> exists st', run_rule r t (mkLex s buf' p') = Ret c v st' /\ lx_start st' = lx_start st /\ lx_buf st' = buf'.
Proof.
  intros E N. unfold run_rule in *. cbn [lx_start lx_buf lx_pos] in *. revert E. rule_cases; intro E; try discriminate E; try (exfalso; lia); try (injection E as <- <- <-; eexists; repeat split).
  - destruct (strtoll0 t); injection E as <- <- <-; eexists; repeat split.
  - destruct (token_rule r); injection E as <- <- <-; eexists; repeat split.
Qed.
Lemma scan_op buf w r c rest : In (w, (r, c)) op_list -> ends_here rest -> scans 1 buf (w ++ rest) [(c, TVNone)] 1 buf rest.
Proof.
  intros I SR. pose proof (proj1 (forallb_forall _ _) ops_ok _ I) as K. unfold op_ok in K. cbn [fst snd] in K. assert (ST : is_start 1) by (left; reflexivity).
  do 6 (apply andb_prop in K as [K ?K]). destruct (run_rule r w (mkLex 1 [] pos0)) as [|c1 [] s1] eqn:RR; try discriminate. apply andb_prop in K0 as [K0 K6]. assert (c1 = c) by lia. subst c1.
  assert (FN : first_nullable (after (active 1) w) = Some r) by (destruct (first_nullable (after (active 1) w)); cbn in K; [f_equal; lia|discriminate]).
  assert (R187 : r <> 187). { intros ->. pose proof (first_matched FN) as M. apply matched_rule in M as [_ [M|M]]; [lia|]. vm_compute in M. discriminate M. }
  destruct (@run_rule_buf r w 1 [] pos0 buf pos0 _ _ _ RR R187) as (s2 & E2 & ES & EB).
  assert (S1 : lx_start s2 = 1) by lia. rewrite <- S1 at 2. rewrite <- EB at 2. apply scans_one with (r := r); [exact ST|destruct w; discriminate| |lia|exact E2|lia].
  apply best_of_first; [exact ST|exact FN|]. apply no_longer; [|exact SR].
  intros d D. destruct (after (active 1) (w ++ [SP])) eqn:A1; [|discriminate]. destruct (after (active 1) (w ++ [TAB])) eqn:A2; [|discriminate]. destruct (after (active 1) (w ++ [LF])) eqn:A3; [|discriminate].
  destruct (is_blank_cases D) as [->|[->| ->]]; assumption.
Qed.
(** ** Numbers *)
Definition digits (w : bytes) : bool := match w with [] => false | _ => forallb is_digit w end.
Definition digit_or_dot (c : ascii) : bool := is_digit c || byte_eqb c "."%char.
Definition nonnum_rules (r : Z) : bool := negb ((r =? 178) || (r =? 179) || (r =? 181)).
Lemma num_all : forallb (only digit_or_dot nonnum_rules) flex_rules = true.
Proof. vm_cast_no_check (eq_refl true). Qed.
Lemma where_181 : rule_where 181 = Normal. Proof. vm_compute. reflexivity. Qed.
Lemma where_178 : rule_where 178 = Normal. Proof. vm_compute. reflexivity. Qed.
Lemma where_179 : rule_where 179 = Normal. Proof. vm_compute. reflexivity. Qed.
Lemma rx_178 : rule_rx 178 = Cat (Plus Digit) (Cat (Chr "."%char) (Star Digit)). Proof. vm_compute. reflexivity. Qed.
Lemma rx_179 : rule_rx 179 = Cat (Chr "."%char) (Star Digit). Proof. vm_compute. reflexivity. Qed.
Lemma digit_matched c w r : is_digit c = true -> matched (active 1) r (c :: w) -> r = 178 \/ r = 181 \/ single r = true /\ w = [].
Proof.
  intros D M. assert (NC : c <> NUL) by (intros ->; discriminate D). destruct (@by_first_ok (active 1) _ _ c r w digits_first NC D M) as [K|K]; [|auto]. unfold digit_rules in K. lia.
Qed.
Lemma matches_Chr c w : c <> NUL -> (matches (Chr c) w <-> w = [c]).
Proof.
  intro N. assert (bz c <> 0) by (intro E; apply N, bz_0, E). unfold Chr. split.
  - inversion 1 as [|n0 l0 d IC| | | | |]; subst. f_equal. apply bz_inj. unfold in_class in IC. cbn [existsb fst snd] in IC. lia.
  - intros ->. constructor. unfold in_class. cbn [existsb fst snd]. lia.
Qed.
Lemma best_integer w rest : digits w = true -> starts digit_or_dot rest = false -> best (active 1) (w ++ rest) 181 (List.length w).
Proof.
  intros W SR. assert (EW : exists d w0, w = d :: w0) by (destruct w; [discriminate|eauto]). destruct EW as (d & w0 & EW). assert (F : forallb is_digit w = true) by (rewrite EW in *; exact W).
  assert (D : is_digit d = true) by (rewrite EW in F; cbn [forallb] in F; apply andb_prop in F as [F _]; exact F). apply best_intro.
  - apply rule_matched; [apply digits_matches; [rewrite EW; discriminate|exact F]|rewrite where_181; reflexivity].
  - intros r' M. rewrite EW in M. destruct (digit_matched D M) as [->|[->|[K ->]]]; [exfalso|lia|].
    + rewrite <- EW in M. apply matched_rule in M as [M _]. rewrite rx_178 in M. apply matches_cat in M as (u & v & E & _ & M). apply matches_cat in M as (u2 & v2 & -> & M & _). apply matches_Chr in M; [|discriminate]. subst u2.
      rewrite E in F. rewrite forallb_app in F. apply andb_prop in F as [_ F]. discriminate F.
    + unfold single in K. assert (R : r' = 177 \/ 181 <= r') by lia. destruct R as [->|R]; [exfalso|exact R]. apply matched_rule in M as [M _]. unfold rule_rx in M. vm_compute (find _ _) in M. cbn [snd] in M.
      inversion M as [|n0 l0 d0 IC| | | | |]; subst. unfold in_class, is_digit, in_range in *. cbn [existsb fst snd] in IC. lia.
  - intros c v u r' -> M. cbn [starts] in SR. rewrite EW in M. cbn [app] in M. destruct (digit_matched D M) as [R|[R|[_ K]]]; [| |destruct w0; discriminate K];
      (pose proof (@only_matched digit_or_dot nonnum_rules 1 r' _ num_all ltac:(lia) ltac:(subst r'; reflexivity) M) as A; change (d :: w0 ++ c :: v) with ((d :: w0) ++ c :: v) in A; rewrite forallb_app in A; apply andb_prop in A as [_ A]; cbn [forallb] in A; rewrite SR in A; discriminate A).
Qed.
Lemma scan_integer buf w v rest : digits w = true -> starts digit_or_dot rest = false -> strtoll0 w = Some v -> scans 1 buf (w ++ rest) [(TOK_INTVAL, TVInt v)] 1 buf rest.
Proof.
  intros W SR E. change 1 with (lx_start (mkLex 1 buf (user_action w pos0))) at 2. change buf with (lx_buf (mkLex 1 buf (user_action w pos0))) at 2.
  apply scans_one with (r := 181); [left; reflexivity|destruct w; discriminate|apply best_integer; assumption|lia| |reflexivity]. unfold run_rule. cbn [Z.eqb Pos.eqb orb]. rewrite E. reflexivity.
Qed.
Lemma scan_integer_range buf w rest : digits w = true -> starts digit_or_dot rest = false -> strtoll0 w = None -> scans 1 buf (w ++ rest) [(64, TVNone)] 1 buf rest.
Proof.
  intros W SR E. change 1 with (lx_start (mkLex 1 buf (user_action w pos0))) at 2. change buf with (lx_buf (mkLex 1 buf (user_action w pos0))) at 2.
  apply scans_one with (r := 181); [left; reflexivity|destruct w; discriminate|apply best_integer; assumption|lia| |reflexivity]. unfold run_rule. cbn [Z.eqb Pos.eqb orb]. rewrite E. reflexivity.
Qed.
(** The decimal value of a list of digits. *)
Definition decimal (w : bytes) : Z := fold_left (fun n c => n * 10 + (bz c - 48)) w 0.
Lemma digits_value_decimal w : forallb is_digit w = true -> forall acc, digits_value 10 acc w = fold_left (fun n c => n * 10 + (bz c - 48)) w acc.
Proof.
  induction w as [|c w IH]; intros F acc; [reflexivity|]. cbn [forallb] in F. apply andb_prop in F as [F1 F2]. cbn [digits_value fold_left]. rewrite F1. unfold digit_val.
  replace (bz c - 48 <? 10) with true by (unfold is_digit, in_range in F1; lia). cbn [andb]. apply IH. exact F2.
Qed.
Lemma strtoll0_decimal w : digits w = true -> starts (fun c => byte_eqb c "0"%char) w = false \/ w = la "0" -> strtoll0 w = if decimal w <=? LLONG_MAX then Some (decimal w) else None.
Proof.
  intros W [L| ->]; [|reflexivity]. unfold strtoll0. destruct w as [|c w]; [discriminate W|]. cbn [starts] in L. rewrite L. rewrite digits_value_decimal by exact W. reflexivity.
Qed.
(** Floating point literals keep their text. *)
Lemma scan_float buf a b rest : forallb is_digit a = true -> forallb is_digit b = true -> (a <> [] \/ b <> []) -> starts is_digit rest = false ->
  scans 1 buf ((a ++ "."%char :: b) ++ rest) [(TOK_FLOATVAL, TVFlt (a ++ "."%char :: b))] 1 buf rest.
Proof.
  intros A B NE SR. set (w := a ++ "."%char :: b). change 1 with (lx_start (mkLex 1 buf (user_action w pos0))) at 2. change buf with (lx_buf (mkLex 1 buf (user_action w pos0))) at 2.
  assert (ND : "."%char <> NUL) by discriminate. assert (MB : matches (Star Digit) b) by (apply star_cls_matches; rewrite (forallb_ext b in_digit); exact B).
  assert (LONG : forall c v u r', rest = c :: v ++ u -> r' = 178 \/ r' = 179 \/ r' = 181 -> ~ matched (active 1) r' (w ++ c :: v)).
  { intros c v u r' -> R M. cbn [starts] in SR. apply matched_rule in M as [M _].
    assert (TAIL : forall x y, w ++ c :: v = x ++ "."%char :: y -> forallb is_digit x = true -> forallb is_digit y = true -> False).
    { intros x y E X Y. unfold w in E. rewrite <- app_assoc in E. cbn [app] in E. clear -E X Y A SR. revert x E X. induction a as [|d a IH]; intros [|e x] E X; cbn [app] in E.
      - injection E as <-. rewrite forallb_app in Y. apply andb_prop in Y as [_ Y]. cbn [forallb] in Y. rewrite SR in Y. discriminate Y.
      - injection E as <- _. discriminate X.
      - injection E as -> _. discriminate A.
      - injection E as -> E. cbn [forallb] in *. apply andb_prop in A as [_ A]. apply andb_prop in X as [_ X]. eapply IH; eauto. }
    destruct R as [->|[->| ->]].
    - rewrite rx_178 in M. apply matches_cat in M as (x & y & E & M1 & M2). apply matches_cat in M2 as (dot & y2 & -> & M2 & M3). apply matches_Chr in M2; [|exact ND]. subst dot.
      apply matches_plus_cls in M1 as [_ M1]. apply matches_star_cls in M3. rewrite (forallb_ext x in_digit) in M1. rewrite (forallb_ext y2 in_digit) in M3. exact (TAIL _ _ E M1 M3).
    - rewrite rx_179 in M. apply matches_cat in M as (dot & y2 & E & M2 & M3). apply matches_Chr in M2; [|exact ND]. subst dot. apply matches_star_cls in M3. rewrite (forallb_ext y2 in_digit) in M3. exact (TAIL [] _ E eq_refl M3).
    - apply matches_digits in M as [_ M]. unfold w in M. rewrite <- app_assoc, forallb_app in M. apply andb_prop in M as [_ M]. discriminate M. }
  assert (R0 : exists r, (r = 178 \/ r = 179) /\ best (active 1) (w ++ rest) r (List.length w)).
  { destruct a as [|d a].
    - exists 179. split; [auto|]. cbn [app] in w. assert (FM : forall r' x, matched (active 1) r' ("."%char :: x) -> r' = 179 \/ single r' = true /\ x = []).
      { intros r' x M. destruct (@by_first_ok (active 1) _ _ _ r' x dot_first ND eq_refl M) as [K|K]; [left; unfold dot_rules in K; lia|auto]. }
      assert (BN : b <> []) by (destruct NE as [NE|NE]; [congruence|exact NE]). apply best_intro.
      + apply rule_matched; [|rewrite where_179; reflexivity]. rewrite rx_179. change w with (["."%char] ++ b). constructor; [apply matches_Chr; [exact ND|reflexivity]|exact MB].
      + intros r' M. destruct (FM _ _ M) as [->|[_ ->]]; [lia|congruence].
      + intros c v u r' ER M. destruct (FM _ _ M) as [->|[_ K]]; [|destruct b; discriminate K]. revert M. apply LONG with (u := u); auto.
    - exists 178. split; [auto|]. assert (D : is_digit d = true) by (cbn [forallb] in A; apply andb_prop in A as [A _]; exact A). apply best_intro.
      + apply rule_matched; [|rewrite where_178; reflexivity]. rewrite rx_178. unfold w. constructor; [apply plus_cls_matches; [discriminate|rewrite (forallb_ext _ in_digit); exact A]|].
        change ("."%char :: b) with (["."%char] ++ b). constructor; [apply matches_Chr; [exact ND|reflexivity]|exact MB].
      + intros r' M. destruct (digit_matched D M) as [->|[->|[_ K]]]; [lia|lia|destruct a; discriminate K].
      + intros c v u r' ER M. destruct (digit_matched D M) as [->|[->|[_ K]]]; [| |destruct a; discriminate K]; revert M; apply LONG with (u := u); auto. }
  destruct R0 as (r & R & B0). apply scans_one with (r := r); [left; reflexivity|unfold w; destruct a; discriminate|exact B0|lia| |reflexivity]. destruct R as [->| ->]; reflexivity.
Qed.
(** ** Blanks *)
Lemma blank_first : by_first (active 1) is_blank (fun r => r =? 4) = true. Proof. vm_cast_no_check (eq_refl true). Qed.
Lemma where_4 : rule_where 4 = Normal. Proof. vm_compute. reflexivity. Qed.
Lemma rx_4 : rule_rx 4 = Plus Blank. Proof. vm_compute. reflexivity. Qed.
Lemma scan_blank buf w rest : blank w -> starts is_blank rest = false -> scans 1 buf (w ++ rest) [] 1 buf rest.
Proof.
  intros W SR. change 1 with (lx_start (mkLex 1 buf (user_action w pos0))) at 2. change buf with (lx_buf (mkLex 1 buf (user_action w pos0))) at 2. pose proof W as [NE F].
  apply scans_one_skip with (r := 4); [left; reflexivity|exact NE| |lia|reflexivity]. assert (EW : exists d w0, w = d :: w0) by (destruct w; [congruence|eauto]). destruct EW as (d & w0 & EW).
  assert (D : is_blank d = true) by (rewrite EW in F; cbn [forallb] in F; apply andb_prop in F as [F _]; exact F). assert (ND : d <> NUL) by (intros ->; discriminate D). apply best_intro.
  - apply rule_matched; [rewrite rx_4; apply matches_blanks; exact W|rewrite where_4; reflexivity].
  - intros r' M. rewrite EW in M. destruct (@by_first_ok (active 1) _ _ _ r' _ blank_first ND D M) as [K|[K _]]; [lia|unfold single in K; lia].
  - intros c v u r' -> M. cbn [starts] in SR. rewrite EW in M. cbn [app] in M. destruct (@by_first_ok (active 1) _ _ _ r' _ blank_first ND D M) as [K|[_ K]]; [|destruct w0; discriminate K].
    assert (r' = 4) by lia. subst r'. apply matched_rule in M as [M _]. rewrite rx_4 in M. apply matches_blanks in M as [_ M]. change (d :: w0 ++ c :: v) with ((d :: w0) ++ c :: v) in M. rewrite forallb_app in M. cbn [forallb] in M. lia.
Qed.
(** ** String literals *)
Fixpoint escape (w : bytes) : bytes := match w with [] => [] | c :: w' => if byte_eqb c QUOTE then QUOTE :: QUOTE :: escape w' else c :: escape w' end.
Definition not_quote (c : ascii) : bool := negb (byte_eqb c QUOTE).
Lemma rx_186 : rule_rx 186 = Star (Cls true [(39, 39)]). Proof. vm_compute. reflexivity. Qed.
Lemma rx_185 : rule_rx 185 = Cat (Chr QUOTE) (Chr QUOTE). Proof. vm_compute. reflexivity. Qed.
Lemma rx_187 : rule_rx 187 = Chr QUOTE. Proof. vm_compute. reflexivity. Qed.
Lemma where_185 : rule_where 185 = StringOnly. Proof. vm_compute. reflexivity. Qed.
Lemma where_186 : rule_where 186 = StringOnly. Proof. vm_compute. reflexivity. Qed.
Lemma where_187 : rule_where 187 = StringOnly. Proof. vm_compute. reflexivity. Qed.
Lemma string_rules r w : matched (active 3) r w -> r = 185 \/ r = 186 \/ r = 187 \/ r = 189.
Proof.
  assert (A : among (fun r => (r =? 185) || (r =? 186) || (r =? 187) || (r =? 189)) (fun _ => false) (active 3) = true) by (vm_compute; reflexivity).
  intro M. destruct (among_matched A M) as [K|[K _]]; [lia|discriminate K].
Qed.
Lemma rx_189 : rule_rx 189 = Alt Any (Chr LF). Proof. vm_compute. reflexivity. Qed.
Lemma matches_189 w : matches (rule_rx 189) w -> exists c, w = [c].
Proof. rewrite rx_189. intro M. apply matches_alt in M as [M|M]; inversion M; subst; eauto. Qed.
Lemma in_not_quote c : c <> NUL -> in_class true [(39, 39)] c = not_quote c.
Proof.
  intro N. assert (bz c <> 0) by (intro E; apply N, bz_0, E). unfold in_class, not_quote. cbn [existsb fst snd]. assert (E : byte_eqb c QUOTE = (bz c =? 39)).
  { unfold byte_eqb, bz. change (N_of_ascii QUOTE) with 39%N. destruct (N.eqb_spec (N_of_ascii c) 39); lia. } rewrite E. lia.
Qed.
Lemma in_not_quote' c : in_class true [(39, 39)] c = true -> not_quote c = true.
Proof. intro H. destruct (byte_eqb c NUL) eqn:E; [apply byte_eqb_eq in E; subst c; discriminate H|]. rewrite <- in_not_quote; [exact H|apply byte_eqb_neq; exact E]. Qed.
Lemma matches_186 w : ~ In NUL w -> (matches (rule_rx 186) w <-> forallb not_quote w = true).
Proof.
  intro N. rewrite rx_186. split.
  - intro M. apply matches_star_cls in M. apply forallb_forall. intros c I. apply in_not_quote'. exact (proj1 (forallb_forall _ _) M c I).
  - intro F. apply star_cls_matches. apply forallb_forall. intros c I. rewrite in_not_quote by (intros ->; contradiction). exact (proj1 (forallb_forall _ _) F c I).
Qed.
Lemma ST3 : is_start 3. Proof. right. left. reflexivity. Qed.
(** Text without quotes inside a literal. *)
Lemma scan_plain buf w rest : w <> [] -> ~ In NUL w -> forallb not_quote w = true -> rest <> [] -> starts not_quote rest = false -> scans 3 buf (w ++ rest) [] 3 (buf ++ w) rest.
Proof.
  intros NE N F NR SR. change 3 with (lx_start (mkLex 3 (buf ++ w) (user_action w pos0))) at 2. change (buf ++ w) with (lx_buf (mkLex 3 (buf ++ w) (user_action w pos0))).
  apply scans_one_skip with (r := 186); [exact ST3|exact NE| |lia|reflexivity]. apply best_intro.
  - apply rule_matched; [apply matches_186; assumption|rewrite where_186; reflexivity].
  - intros r' M. destruct (string_rules M) as [->|[->|[->| ->]]]; try lia. apply matched_rule in M as [M _]. rewrite rx_185 in M. apply matches_cat in M as (x & y & -> & M & _). apply matches_Chr in M; [|discriminate]. subst x. discriminate F.
  - intros c v u r' -> M. cbn [starts] in SR. destruct w as [|d w]; [congruence|]. cbn [forallb] in F. apply andb_prop in F as [F1 F2]. cbn [app] in M. destruct (string_rules M) as [->|[->|[->| ->]]]; apply matched_rule in M as [M _].
    + rewrite rx_185 in M. apply matches_cat in M as (x & y & E & M & _). apply matches_Chr in M; [|discriminate]. subst x. injection E as -> _. discriminate F1.
    + rewrite rx_186 in M. apply matches_star_cls in M. change (d :: w ++ c :: v) with ((d :: w) ++ c :: v) in M. rewrite forallb_app in M. apply andb_prop in M as [_ M]. cbn [forallb] in M. apply andb_prop in M as [M _].
      apply in_not_quote' in M. congruence.
    + rewrite rx_187 in M. apply matches_Chr in M; [|discriminate]. destruct w; discriminate M.
    + apply matches_189 in M as (x & E). destruct w; discriminate E.
Qed.
Lemma scan_escaped buf rest : scans 3 buf (QUOTE :: QUOTE :: rest) [] 3 (buf ++ [QUOTE]) rest.
Proof.
  change (QUOTE :: QUOTE :: rest) with ([QUOTE; QUOTE] ++ rest). change 3 with (lx_start (mkLex 3 (buf ++ [QUOTE]) (user_action [QUOTE; QUOTE] pos0))) at 2. change (buf ++ [QUOTE]) with (lx_buf (mkLex 3 (buf ++ [QUOTE]) (user_action [QUOTE; QUOTE] pos0))).
  apply scans_one_skip with (r := 185); [exact ST3|discriminate| |lia|reflexivity]. apply best_intro.
  - apply rule_matched; [|rewrite where_185; reflexivity]. rewrite rx_185. change [QUOTE; QUOTE] with ([QUOTE] ++ [QUOTE]). constructor; apply matches_Chr; (discriminate || reflexivity).
  - intros r' M. destruct (string_rules M) as [->|[->|[->| ->]]]; lia.
  - intros c v u r' -> M. cbn [app] in M. destruct (string_rules M) as [->|[->|[->| ->]]]; apply matched_rule in M as [M _].
    + rewrite rx_185 in M. apply matches_cat in M as (x & y & E & M & M2). apply matches_Chr in M; [|discriminate]. apply matches_Chr in M2; [|discriminate]. subst x y. discriminate E.
    + rewrite rx_186 in M. apply matches_star_cls in M. discriminate M.
    + rewrite rx_187 in M. apply matches_Chr in M; [|discriminate]. discriminate M.
    + apply matches_189 in M as (x & E). discriminate E.
Qed.
Lemma scan_close buf rest : starts (fun c => byte_eqb c QUOTE) rest = false -> scans 3 buf (QUOTE :: rest) [(TOK_STRING, TVStr buf)] 1 buf rest.
Proof.
  intro SR. change (QUOTE :: rest) with ([QUOTE] ++ rest). change 1 with (lx_start (mkLex 1 buf (user_action [QUOTE] pos0))). change buf with (lx_buf (mkLex 1 buf (user_action [QUOTE] pos0))) at 3.
  apply scans_one with (r := 187); [exact ST3|discriminate| |lia|reflexivity|reflexivity]. apply best_intro.
  - apply rule_matched; [|rewrite where_187; reflexivity]. rewrite rx_187. apply matches_Chr; [discriminate|reflexivity].
  - intros r' M. destruct (string_rules M) as [->|[->|[->| ->]]]; try lia; apply matched_rule in M as [M _].
    + rewrite rx_185 in M. apply matches_cat in M as (x & y & E & M & M2). apply matches_Chr in M; [|discriminate]. apply matches_Chr in M2; [|discriminate]. subst x y. discriminate E.
    + rewrite rx_186 in M. apply matches_star_cls in M. discriminate M.
  - intros c v u r' -> M. cbn [app starts] in *. destruct (string_rules M) as [->|[->|[->| ->]]]; apply matched_rule in M as [M _].
    + rewrite rx_185 in M. apply matches_cat in M as (x & y & E & M & M2). apply matches_Chr in M; [|discriminate]. apply matches_Chr in M2; [|discriminate]. subst x y. injection E as -> ->. discriminate SR.
    + rewrite rx_186 in M. apply matches_star_cls in M. discriminate M.
    + rewrite rx_187 in M. apply matches_Chr in M; [|discriminate]. discriminate M.
    + apply matches_189 in M as (x & E). discriminate E.
Qed.
Lemma scan_open buf rest : scans 1 buf (QUOTE :: rest) [] 3 [] rest.
Proof.
  change (QUOTE :: rest) with ([QUOTE] ++ rest). change 3 with (lx_start (mkLex 3 [] (user_action [QUOTE] pos0))). change (@nil ascii) with (lx_buf (mkLex 3 [] (user_action [QUOTE] pos0))) at 3.
  assert (F : by_first (active 1) (fun c => byte_eqb c QUOTE) (fun _ => false) = false) by (vm_compute; reflexivity).
  apply scans_one_skip with (r := 184); [left; reflexivity|discriminate| |lia|reflexivity]. apply best_of_first; [left; reflexivity|vm_compute; reflexivity|].
  intros c v u r' _ M. cbn [app] in M. assert (E : forall r x, matched (steps QUOTE (active 1)) r x -> x = []).
  { intros r x H. assert (A : among (fun _ => false) (fun _ => true) (steps QUOTE (active 1)) = true) by (vm_compute; reflexivity). destruct (among_matched A H) as [K|[_ K]]; [discriminate K|exact K]. }
  apply steps_ok in M. apply E in M. discriminate M.
Qed.
Lemma scan_body w : forall buf rest, ~ In NUL w -> starts (fun c => byte_eqb c QUOTE) rest = false -> scans 3 buf (escape w ++ QUOTE :: rest) [(TOK_STRING, TVStr (buf ++ w))] 1 (buf ++ w) rest.
Proof.
  remember (List.length w) as n eqn:L. revert w L. induction n as [n IH] using lt_wf_ind. intros w -> buf rest N SR. destruct w as [|c w].
  - cbn [escape app]. rewrite app_nil_r. apply scan_close. exact SR.
  - cbn [escape]. destruct (byte_eqb c QUOTE) eqn:Q.
    + apply byte_eqb_eq in Q. subst c. cbn [app]. change ([(TOK_STRING, TVStr (buf ++ QUOTE :: w))]) with ([] ++ [(TOK_STRING, TVStr (buf ++ QUOTE :: w))]). eapply scans_trans; [apply scan_escaped|].
      change (buf ++ QUOTE :: w) with (buf ++ [QUOTE] ++ w). rewrite app_assoc. eapply (IH (List.length w)); auto; cbn; try lia. intro I. apply N. now right.
    + (* the longest prefix without quotes *)
      assert (SPL : exists x y, c :: w = x ++ y /\ x <> [] /\ forallb not_quote x = true /\ escape (c :: w) = x ++ escape y /\ (y = [] \/ exists y', y = QUOTE :: y')).
      { clear -Q. revert c Q. induction w as [|d w IHw]; intros c Q.
        - exists [c], []. cbn [escape app forallb]. unfold not_quote. rewrite Q. repeat split; auto. discriminate.
        - destruct (byte_eqb d QUOTE) eqn:Q2.
          + exists [c], (d :: w). cbn [escape app forallb]. unfold not_quote. rewrite Q. repeat split; auto; [discriminate|]. right. apply byte_eqb_eq in Q2. subst d. eauto.
          + destruct (IHw d Q2) as (x & y & E1 & E2 & E3 & E4 & E5). exists (c :: x), y. rewrite E1. cbn [app forallb]. unfold not_quote at 1. rewrite Q. repeat split; auto; [discriminate|].
            rewrite <- E1. change (escape (c :: d :: w)) with (if byte_eqb c QUOTE then QUOTE :: QUOTE :: escape (d :: w) else c :: escape (d :: w)). rewrite Q, E4. reflexivity. }
      destruct SPL as (x & y & E1 & NX & FX & E2 & SY). cbn [escape] in E2. rewrite Q in E2. rewrite E2, E1 in *. rewrite <- app_assoc.
      assert (NX2 : ~ In NUL x) by (intro I; apply N; apply in_or_app; now left). assert (NY : ~ In NUL y) by (intro I; apply N; apply in_or_app; now right).
      change ([(TOK_STRING, TVStr (buf ++ x ++ y))]) with ([] ++ [(TOK_STRING, TVStr (buf ++ x ++ y))]).
      eapply scans_trans; [apply scan_plain; auto|].
      * destruct (escape y); discriminate.
      * destruct SY as [->|[y' ->]]; reflexivity.
      * rewrite !app_assoc. eapply (IH (List.length y)); auto. rewrite app_length. destruct x; [congruence|]. cbn. lia.
Qed.
Lemma scan_string buf w rest : ~ In NUL w -> starts (fun c => byte_eqb c QUOTE) rest = false -> scans 1 buf (QUOTE :: escape w ++ QUOTE :: rest) [(TOK_STRING, TVStr w)] 1 w rest.
Proof.
  intros N SR. change ([(TOK_STRING, TVStr w)]) with ([] ++ [(TOK_STRING, TVStr ([] ++ w))]). eapply scans_trans; [apply scan_open|]. apply (@scan_body w []); assumption.
Qed.
(** ** Quoted identifiers *)
Definition in_quotes (c : ascii) : bool := negb (byte_eqb c NUL) && negb (byte_eqb c DQUOTE) && negb (byte_eqb c LF).
Lemma rx_182 : rule_rx 182 = Cat (Chr """"%char) (Cat (Plus (Cls true [(34, 34); (10, 10)])) (Chr """"%char)). Proof. vm_compute. reflexivity. Qed.
Lemma where_182 : rule_where 182 = Normal. Proof. vm_compute. reflexivity. Qed.
Lemma byte_eqb_bz c d : byte_eqb c d = (bz c =? bz d).
Proof. unfold byte_eqb, bz. destruct (N.eqb_spec (N_of_ascii c) (N_of_ascii d)); lia. Qed.
Lemma in_in_quotes c : in_class true [(34, 34); (10, 10)] c = in_quotes c.
Proof. unfold in_class, in_quotes. cbn [existsb fst snd]. rewrite !byte_eqb_bz. change (bz NUL) with 0. change (bz DQUOTE) with 34. change (bz LF) with 10. lia. Qed.
Lemma scan_quoted buf w rest : w <> [] -> forallb in_quotes w = true -> scans 1 buf (DQUOTE :: w ++ DQUOTE :: rest) [(TOK_IDENTIFIER, TVStr w)] 1 buf rest.
Proof.
  intros NE F. assert (ND : DQUOTE <> NUL) by discriminate. set (t := DQUOTE :: w ++ [DQUOTE]). replace (DQUOTE :: w ++ DQUOTE :: rest) with (t ++ rest) by (unfold t; cbn [app]; rewrite <- app_assoc; reflexivity).
  assert (FM : forall r x, matched (active 1) r (DQUOTE :: x) -> r = 182 \/ single r = true /\ x = []).
  { intros r x M. apply steps_ok in M. assert (A : among (fun r => r =? 182) single (steps DQUOTE (active 1)) = true) by (vm_compute; reflexivity). destruct (among_matched A M) as [K|K]; [left; lia|auto]. }
  change 1 with (lx_start (mkLex 1 buf (user_action t pos0))) at 2. change buf with (lx_buf (mkLex 1 buf (user_action t pos0))) at 2.
  apply scans_one with (r := 182); [left; reflexivity|discriminate| |lia| |reflexivity].
  - apply best_intro.
    + apply rule_matched; [|rewrite where_182; reflexivity]. rewrite rx_182. unfold t. change (DQUOTE :: w ++ [DQUOTE]) with ([DQUOTE] ++ (w ++ [DQUOTE])). constructor; [apply matches_Chr; [exact ND|reflexivity]|].
      constructor; [|apply matches_Chr; [exact ND|reflexivity]]. apply plus_cls_matches; [exact NE|]. rewrite (forallb_ext w in_in_quotes). exact F.
    + intros r' M. unfold t in M. destruct (FM _ _ M) as [->|[_ K]]; [lia|]. destruct w; discriminate K.
    + intros c v u r' _ M. unfold t in M. cbn [app] in M. destruct (FM _ _ M) as [->|[_ K]]; [|destruct w; discriminate K]. apply matched_rule in M as [M _]. rewrite rx_182 in M.
      apply matches_cat in M as (q & x & E & M1 & M2). apply matches_Chr in M1; [|exact ND]. subst q. injection E as E. apply matches_cat in M2 as (y & q & -> & M2 & M3). apply matches_Chr in M3; [|exact ND]. subst q.
      apply matches_plus_cls in M2 as [_ M2]. rewrite (forallb_ext y in_in_quotes) in M2. rewrite <- app_assoc in E. cbn [app] in E.
      assert (K : forall a b c1 d1, forallb in_quotes a = true -> forallb in_quotes b = true -> a ++ DQUOTE :: c1 = b ++ DQUOTE :: d1 -> c1 = d1).
      { clear. induction a as [|x a IH]; intros [|y b] c1 d1 A B E; cbn [app] in E.
        - injection E as E. exact E. - injection E as <- _. discriminate B. - injection E as -> _. discriminate A. - injection E as -> E. cbn [forallb] in *. apply andb_prop in A as [_ A]. apply andb_prop in B as [_ B]. eapply IH; eauto. }
      apply (K _ _ _ _ F M2) in E. discriminate E.
  - unfold run_rule, t. cbn [Z.eqb Pos.eqb orb tl]. rewrite removelast_last. reflexivity.
Qed.
(** ** Comments *)
Lemma ST5 : is_start 5. Proof. right. right. reflexivity. Qed.
Lemma ST1 : is_start 1. Proof. left. reflexivity. Qed.
Lemma scan_dashes buf rest : scans 1 buf (la "--" ++ rest) [] 5 buf rest.
Proof.
  change 5 with (lx_start (mkLex 5 buf (user_action (la "--") pos0))). change buf with (lx_buf (mkLex 5 buf (user_action (la "--") pos0))) at 2.
  apply scans_one_skip with (r := 1); [exact ST1|discriminate| |lia|reflexivity]. apply best_of_first; [exact ST1|vm_compute; reflexivity|].
  intros c v u r' _ M. rewrite <- after_ok in M. assert (A : among (fun _ => false) (fun _ => true) (after (active 1) (la "--")) = true) by (vm_compute; reflexivity). destruct (among_matched A M) as [K|[_ K]]; discriminate K.
Qed.
Lemma rx_2 : rule_rx 2 = Star (Cls true [(10, 10)]). Proof. vm_compute. reflexivity. Qed.
Lemma rx_3 : rule_rx 3 = Chr LF. Proof. vm_compute. reflexivity. Qed.
Lemma where_3 : rule_where 3 = CommentOnly. Proof. vm_compute. reflexivity. Qed.
Definition is_keyword_pair (c b : bytes) : Prop := (* the comment text is the first half of a two-word token *)
  exists bl u x tail, c ++ LF :: b = u ++ bl ++ x ++ tail /\ blank bl /\ In LF bl /\ (same_case u (la "CURRENT") /\ same_case x (la "ROW") \/ same_case u (la "CHARACTER") /\ same_case x (la "VARYING")).
Lemma not_LF_in w : forallb not_LF w = true -> ~ In LF w.
Proof. intros F I. pose proof (proj1 (forallb_forall _ _) F _ I) as K. discriminate K. Qed.
Lemma in_not_lf c : c <> NUL -> in_class true [(10, 10)] c = not_LF c.
Proof. intro N. assert (bz c <> 0) by (intro E; apply N, bz_0, E). unfold in_class, not_LF. cbn [existsb fst snd]. rewrite byte_eqb_bz. change (bz LF) with 10. lia. Qed.
Lemma rule2_matches c : ~ In NUL c -> forallb not_LF c = true -> matched (active 5) 2 c.
Proof.
  intros N F. apply rule_matched; [|rewrite where_2; reflexivity]. rewrite rx_2. apply star_cls_matches. apply forallb_forall. intros x I. rewrite in_not_lf by (intros ->; contradiction). exact (proj1 (forallb_forall _ _) F x I).
Qed.
Lemma rule12 r t st : r = 1 \/ r = 2 -> lx_start st = 5 -> exists st', run_rule r t st = Skip st' /\ lx_start st' = 5 /\ lx_buf st' = lx_buf st.
Proof. intros [->| ->] E; eexists; (split; [reflexivity|]); cbn; auto. Qed.
(** Comment text up to (not including) the line end. *)
Lemma scan_comment_text buf c rest : c <> [] -> ~ In NUL c -> forallb not_LF c = true ->
  (rest = [] \/ existsb (fun x => negb (is_blank x)) c = true /\ exists b, rest = LF :: b /\ ~ is_keyword_pair c b) -> scans 5 buf (c ++ rest) [] 5 buf rest.
Proof.
  intros NE N F RS. assert (FN : exists r, first_nullable (after (active 5) c) = Some r /\ (r = 1 \/ r = 2)).
  { pose proof (rule2_matches N F) as M. rewrite <- (app_nil_r c) in M at 1. rewrite <- after_ok in M. pose proof (first_nullable_ok (after (active 5) c)) as K. destruct (first_nullable (after (active 5) c)) as [r|]; [|destruct (K _ M)].
    exists r. split; [reflexivity|]. destruct K as [K1 K2]. assert (r <= 2). { apply K2; [|exact M]. generalize (active_sorted ST5). generalize (active 5). clear. induction c as [|x c IH]; intros l S; [exact S|]. cbn [after]. apply IH. apply steps_sorted. exact S. }
    rewrite after_ok, app_nil_r in K1. destruct K1 as (x & I & _). destruct (active_In I) as (wh & I2 & _). assert (RG : forallb (fun p => 1 <=? fst p) flex_rules = true) by (vm_compute; reflexivity). pose proof (proj1 (forallb_forall _ _) RG _ I2) as K. cbn [fst] in K. lia. }
  destruct FN as (r & FN & R). destruct (@rule12 r c (mkLex 5 buf pos0) R eq_refl) as (st' & RR & S5 & SB). cbn [lx_buf] in SB. rewrite <- S5 at 2. rewrite <- SB at 2.
  apply scans_one_skip with (r := r); [exact ST5|exact NE| |lia|exact RR]. apply best_of_first; [exact ST5|exact FN|].
  intros d v u r' -> M. destruct RS as [RS|(NB & b & RS & KP)]; [discriminate RS|]. injection RS as -> <-.
  assert (LFB : forall x1 bl x2, c ++ LF :: v = x1 ++ bl ++ x2 -> forallb is_word x1 = true -> forallb is_word x2 = true -> In LF bl).
  { intros x1 bl x2 E W1 W2. assert (I : In LF (x1 ++ bl ++ x2)) by (rewrite <- E; apply in_or_app; right; now left). apply in_app_or in I as [I|I]; [pose proof (proj1 (forallb_forall _ _) W1 _ I) as K; discriminate K|].
    apply in_app_or in I as [I|I]; [exact I|]. pose proof (proj1 (forallb_forall _ _) W2 _ I) as K; discriminate K. }
  destruct (lf_rules r') eqn:LR.
  - unfold lf_rules in LR. assert (RC : r' = 3 \/ r' = 4 \/ r' = 169 \/ r' = 170 \/ r' = 189) by lia. destruct RC as [->|[->|[->|[->| ->]]]].
    + apply matched_rule in M as [M _]. rewrite rx_3 in M. apply matches_Chr in M; [|discriminate]. destruct c as [|x [|? ?]]; try congruence; discriminate M.
    + apply matched_rule in M as [M _]. rewrite rx_4 in M. apply matches_blanks in M as [_ M]. rewrite forallb_app in M. apply andb_prop in M as [M _]. apply existsb_exists in NB as (x & I & NX). rewrite (proj1 (forallb_forall _ _) M x I) in NX. discriminate NX.
    + apply matched_169 in M as (x1 & bl & x2 & E & S1 & B & S2). apply KP. exists bl, x1, x2, u. split; [|split; [exact B|split; [eapply LFB; [exact E|eapply alpha_chars_word; [exact S1|reflexivity]|eapply alpha_chars_word; [exact S2|reflexivity]]|left; split; apply same_case_sym; assumption]]].
      change (c ++ LF :: v ++ u) with (c ++ (LF :: v) ++ u). rewrite app_assoc, E, <- !app_assoc. reflexivity.
    + apply matched_170 in M as (x1 & bl & x2 & E & S1 & B & S2). apply KP. exists bl, x1, x2, u. split; [|split; [exact B|split; [eapply LFB; [exact E|eapply alpha_chars_word; [exact S1|reflexivity]|eapply alpha_chars_word; [exact S2|reflexivity]]|right; split; apply same_case_sym; assumption]]].
      change (c ++ LF :: v ++ u) with (c ++ (LF :: v) ++ u). rewrite app_assoc, E, <- !app_assoc. reflexivity.
    + apply matched_rule in M as [M _]. apply matches_189 in M as (x & E). destruct c as [|y [|? ?]]; try congruence; discriminate E.
  - pose proof (@only_matched not_LF lf_rules 5 r' _ lf_all ltac:(lia) LR M) as A. rewrite forallb_app in A. apply andb_prop in A as [_ A]. discriminate A.
Qed.
Lemma scan_line_end buf rest : starts is_blank rest = false -> ~ In NUL rest -> scans 5 buf (LF :: rest) [] 1 buf rest.
Proof.
  intros SR N. change (LF :: rest) with ([LF] ++ rest). change 1 with (lx_start (mkLex 1 buf (user_action [LF] pos0))). change buf with (lx_buf (mkLex 1 buf (user_action [LF] pos0))) at 2.
  apply scans_one_skip with (r := 3); [exact ST5|discriminate| |lia|reflexivity]. apply best_of_first; [exact ST5|vm_compute; reflexivity|].
  intros c v u r' -> M. cbn [starts app] in *. change (LF :: c :: v) with ([LF] ++ c :: v) in M. rewrite <- after_ok in M.
  assert (A : among (fun r => r =? 4) (fun _ => true) (after (active 5) [LF]) = true) by (vm_compute; reflexivity). destruct (among_matched A M) as [K|[_ K]]; [|discriminate K].
  assert (r' = 4) by lia. subst r'. rewrite after_ok in M. apply matched_rule in M as [M _]. rewrite rx_4 in M. apply matches_blanks in M as [_ M]. cbn [app forallb] in M. rewrite SR in M. discriminate M.
Qed.
(** ** The most negative integer *)
Lemma scan_min buf rest : scans 1 buf (la "-9223372036854775808" ++ rest) [(TOK_INTVAL, TVInt LLONG_MIN)] 1 buf rest.
Proof.
  set (w := la "-9223372036854775808"). change 1 with (lx_start (mkLex 1 buf (user_action w pos0))) at 2. change buf with (lx_buf (mkLex 1 buf (user_action w pos0))) at 2.
  apply scans_one with (r := 180); [exact ST1|discriminate| |lia|reflexivity|reflexivity]. apply best_of_first; [exact ST1|vm_compute; reflexivity|].
  intros c v u r' _ M. rewrite <- after_ok in M. assert (A : among (fun _ => false) (fun _ => true) (after (active 1) w) = true) by (vm_compute; reflexivity). destruct (among_matched A M) as [K|[_ K]]; discriminate K.
Qed.
