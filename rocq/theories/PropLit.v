(** Properties C33 and C34.  Vocabulary: see PropStmt.v. *)
From Verif Require Import Script PropStmt Adjacent PropParse.
From Verif Require Import LexScan LexWords LexTok Part Expr Stmt Legal.
From Coq Require Import ZifyBool ZifyNat ZifyN.
Local Open Scope nat_scope.

(** ** The meaning of %<w>d *)
(** Blanks, an optional sign and digits; sign and digits are at most [w] characters. *)
Definition sign_text (s : bytes) : Prop := s = [] \/ s = ["+"%char] \/ s = ["-"%char].
Inductive int_text (w : nat) : bytes -> Z -> Prop :=
| IntText : forall blanks sign digits, forallb is_space blanks = true -> sign_text sign -> forallb is_digit digits = true -> digits <> [] -> List.length (sign ++ digits) <= w ->
    int_text w (blanks ++ sign ++ digits) (if bytes_eqb sign ["-"%char] then (- digits_val digits)%Z else digits_val digits).
Lemma scan_digits_count w : forall acc n s v m r, scan_digits w acc n s = (v, m, r) -> exists ds, s = ds ++ r /\ forallb is_digit ds = true /\ v = fold_left (fun n c => n * 10 + (bz c - 48))%Z ds acc /\ m = n + List.length ds /\ List.length ds <= w.
Proof.
  induction w as [|w IH]; intros acc n s v m r E; cbn [scan_digits] in E; [injection E as <- <- <-; exists []; cbn; repeat split; lia|].
  destruct s as [|c s]; [injection E as <- <- <-; exists []; cbn; repeat split; lia|]. destruct (is_digit c) eqn:D; [|injection E as <- <- <-; exists []; cbn; repeat split; lia].
  destruct (IH _ _ _ _ _ _ E) as (ds & -> & F & -> & -> & L). exists (c :: ds). cbn [app forallb fold_left List.length]. rewrite D. repeat split; [exact F|lia|lia].
Qed.
(** Reading digits stops at the width or at a character that is no digit. *)
Definition stops (w n : nat) (r : bytes) : Prop := w = n \/ match r with c :: _ => is_digit c = false | [] => True end.
Lemma scan_digits_all ds : forall w acc n r, forallb is_digit ds = true -> List.length ds <= w -> stops w (List.length ds) r ->
  scan_digits w acc n (ds ++ r) = (fold_left (fun n c => n * 10 + (bz c - 48))%Z ds acc, n + List.length ds, r).
Proof.
  induction ds as [|c ds IH]; intros w acc n r F L ST; cbn [app fold_left List.length] in *.
  - rewrite Nat.add_0_r. destruct w; [reflexivity|]. cbn [scan_digits]. destruct r as [|c r]; [reflexivity|]. destruct ST as [ST|ST]; [discriminate|]. now rewrite ST.
  - destruct w as [|w]; [lia|]. cbn [scan_digits forallb] in *. apply andb_prop in F as [F1 F2]. rewrite F1. rewrite IH; [|exact F2|lia|]. { f_equal. f_equal. lia. } destruct ST as [ST|ST]; [left; lia|right; exact ST].
Qed.
Lemma skip_blanks b s : forallb is_space b = true -> match s with c :: _ => is_space c = false | [] => True end -> skip_space (b ++ s) = s.
Proof. induction b as [|c b IH]; intros F H; cbn [app]; [destruct s as [|c s]; [reflexivity|cbn [skip_space]; now rewrite H]|]. cbn [forallb] in F. apply andb_prop in F as [F1 F2]. cbn [skip_space]. rewrite F1. now apply IH. Qed.
Lemma digit_facts c : is_digit c = true -> is_space c = false /\ byte_eqb c "-"%char = false /\ byte_eqb c "+"%char = false.
Proof.
  intro D. unfold is_digit, in_range in D. unfold is_space, in_range. split; [lia|]. split; (destruct (byte_eqb c _) eqn:E; [|reflexivity]); apply byte_eqb_eq in E; subst c; discriminate D.
Qed.
Lemma scan_d_spec w s z r : scan_d w s = Some (z, r) -> exists t, s = t ++ r /\ int_text w t z.
Proof.
  unfold scan_d. intro E. destruct (skip_space_split s) as (b & ES & EB). destruct (skip_space s) as [|c s'] eqn:SK; [discriminate|].
  destruct (byte_eqb c "-"%char) eqn:M; cbn [orb] in E.
  - destruct (scan_digits (Nat.pred w) 0 0 s') as [[v m] r'] eqn:SD. destruct m as [|m]; [discriminate|]. injection E as <- <-. destruct (scan_digits_count _ _ _ _ _ _ _ SD) as (ds & -> & FD & EV & LM & LW). apply byte_eqb_eq in M. subst c.
    exists (b ++ ["-"%char] ++ ds). split; [rewrite ES; cbn [app]; rewrite <- !app_assoc; reflexivity|]. rewrite EV. refine (IntText w b ["-"%char] ds EB _ FD _ _); [right; now right|intros ->; cbn in LM; lia|cbn [app List.length]; destruct w; cbn in *; lia].
  - destruct (byte_eqb c "+"%char) eqn:P.
    + destruct (scan_digits (Nat.pred w) 0 0 s') as [[v m] r'] eqn:SD. destruct m as [|m]; [discriminate|]. injection E as <- <-. destruct (scan_digits_count _ _ _ _ _ _ _ SD) as (ds & -> & FD & EV & LM & LW). apply byte_eqb_eq in P. subst c.
      exists (b ++ ["+"%char] ++ ds). split; [rewrite ES; cbn [app]; rewrite <- !app_assoc; reflexivity|]. rewrite EV. refine (IntText w b ["+"%char] ds EB _ FD _ _); [right; now left|intros ->; cbn in LM; lia|cbn [app List.length]; destruct w; cbn in *; lia].
    + destruct (scan_digits w 0 0 (c :: s')) as [[v m] r'] eqn:SD. destruct m as [|m]; [discriminate|]. injection E as <- <-. destruct (scan_digits_count _ _ _ _ _ _ _ SD) as (ds & EQ & FD & EV & LM & LW).
      exists (b ++ [] ++ ds). split; [rewrite ES, EQ; cbn [app]; rewrite <- app_assoc; reflexivity|]. rewrite EV. refine (IntText w b [] ds EB _ FD _ _); [now left|intros ->; cbn in LM; lia|exact LW].
Qed.
Lemma scan_d_reads w t z r : int_text w t z -> match r with c :: _ => is_digit c = false | [] => True end -> scan_d w (t ++ r) = Some (z, r).
Proof.
  intros [b sg ds EB SG FD NE LW] ST. unfold scan_d. rewrite <- !app_assoc. destruct ds as [|d ds]; [now elim NE|]. assert (D0 : is_digit d = true) by (cbn [forallb] in FD; now apply andb_prop in FD).
  assert (SC : forall w', List.length (d :: ds) <= w' -> scan_digits w' 0 0 ((d :: ds) ++ r) = (digits_val (d :: ds), List.length (d :: ds), r)) by (intros w' L; exact (scan_digits_all _ _ _ 0 _ FD L (or_intror ST))). cbn [app] in SC.
  destruct (digit_facts _ D0) as (S0 & F1 & F2). destruct SG as [->|[->| ->]]; cbn [app List.length] in *.
  - rewrite skip_blanks; [|exact EB|exact S0]. rewrite F1, F2. cbn [orb]. rewrite SC by lia. reflexivity.
  - rewrite skip_blanks; [|exact EB|reflexivity]. change (byte_eqb "+"%char "-"%char) with false. change (byte_eqb "+"%char "+"%char) with true. cbn [orb]. rewrite SC by lia. reflexivity.
  - rewrite skip_blanks; [|exact EB|reflexivity]. change (byte_eqb "-"%char "-"%char) with true. cbn [orb]. rewrite SC by lia. reflexivity.
Qed.

(** ** C33: date literals *)
Definition dash : bytes := ["-"%char].
(** %4d-%2d-%2d, to the end. *)
Definition date_text (s : bytes) : Prop := exists y m d yv mv dv, s = y ++ dash ++ m ++ dash ++ d /\ int_text 4 y yv /\ int_text 2 m mv /\ int_text 2 d dv.
Lemma scan_date_spec s : scan_date s = true <-> date_text s.
Proof.
  unfold scan_date, date_text. split.
  - destruct (scan_d 4 s) as [[yv r1]|] eqn:E1; [|discriminate]. apply scan_d_spec in E1 as (y & -> & Y). destruct r1 as [|c r1]; cbn [scan_dash]; [discriminate|]. destruct (byte_eqb c "-"%char) eqn:C; [|discriminate]. apply byte_eqb_eq in C. subst c.
    destruct (scan_d 2 r1) as [[mv r2]|] eqn:E2; [|discriminate]. apply scan_d_spec in E2 as (m & -> & M). destruct r2 as [|c r2]; cbn [scan_dash]; [discriminate|]. destruct (byte_eqb c "-"%char) eqn:C; [|discriminate]. apply byte_eqb_eq in C. subst c.
    destruct (scan_d 2 r2) as [[dv r3]|] eqn:E3; [|discriminate]. apply scan_d_spec in E3 as (d & -> & D). destruct r3; [|discriminate]. intros _. exists y, m, d, yv, mv, dv. rewrite app_nil_r. auto.
  - intros (y & m & d & yv & mv & dv & -> & Y & M & D). unfold dash. rewrite (scan_d_reads 4 y yv); [|exact Y|reflexivity]. cbn [scan_dash app]. change (byte_eqb "-"%char "-"%char) with true. cbv iota. rewrite (scan_d_reads 2 m mv); [|exact M|reflexivity].
    cbn [scan_dash app]. change (byte_eqb "-"%char "-"%char) with true. cbv iota. rewrite <- (app_nil_r d). rewrite (scan_d_reads 2 d dv); [reflexivity|exact D|exact I].
Qed.
(** DATE 'text' in a valid input: the text is a date. *)
Lemma derives_terminal X t : derives X t -> terminal X = true -> exists k, t = Leaf k /\ sym_of k = X.
Proof. intros D T. destruct D as [k|r lhs rhs ts P DL]; [eauto|]. destruct (first_rule P) as (NT & _). congruence. Qed.
Lemma date_meeting : meeting (sym_of_code TOK_DATE) (sym_of_code TOK_STRING) = [(294%N, [1])]. Proof. vm_compute. reflexivity. Qed.
Lemma date_leaves ts X k : derives X (Node 294 ts) -> sem (Node 294 ts) k <> None -> exists a b, ts = [Leaf a; Leaf b] /\ scan_date (text (token_val b)) = true.
Proof.
  intros D S. inversion D as [|? ? rhs ? P DL]; subst. assert (E : production 294 = Some (X, rhs)) by exact P. vm_compute in E. injection E as <- <-.
  inversion DL as [|? ? t1 ? D1 DL1]; subst. inversion DL1 as [|? ? t2 ? D2 DL2]; subst. inversion DL2; subst.
  destruct (derives_terminal _ _ D1 eq_refl) as (a & -> & _). destruct (derives_terminal _ _ D2 eq_refl) as (b & -> & _). exists a, b. split; [reflexivity|]. rewrite sem_node in S. cbn [sems sem] in S.
  change (asem 294 k [token_val a; token_val b]) with (if scan_date (text (token_val b)) then Some (expr kExprLiteralDate [(F_name, token_val b)]) else None) in S. now destruct (scan_date (text (token_val b))).
Qed.
Lemma list_eq_nil_or {A} (l : list A) : l = [] \/ exists l' x, l = l' ++ [x].
Proof. destruct l as [|x l]; [now left|]. right. destruct (@exists_last _ (x :: l)) as (l' & y & E); [discriminate|]. eauto. Qed.
(** What the derivation of a valid input looks like. *)
Lemma valid_tree sql ts buf0 r e : tokens sql ts -> parse buf0 sql fresh_env = PRet r e -> e_valid e = true ->
  exists t eof, derives S_input t /\ yield t ++ [eof] = ts /\ sym_of eof = 0%N /\ sem t 0 <> None.
Proof.
  intros T P V. apply (C04_valid_iff _ _ _ _ _ T P) in V. destruct V as (a & b & eof & l & n & D & Y & K & _ & _ & S). exists (Node 2 [a; b]), eof. split; [exact D|]. split; [exact Y|]. split; [exact K|].
  eapply sem_input; eassumption.
Qed.
Lemma before_eof (t : tree) eof l1 (x : token) l2 : yield t ++ [eof] = l1 ++ x :: l2 -> sym_of eof = 0%N -> sym_of x <> 0%N -> exists l2', l2 = l2' ++ [eof] /\ yield t = l1 ++ x :: l2'.
Proof.
  intros Y K N. destruct (list_eq_nil_or l2) as [->|(l2' & z & ->)].
  - apply app_inj_tail in Y as [_ <-]. congruence.
  - change (l1 ++ x :: l2' ++ [z]) with (l1 ++ (x :: l2') ++ [z]) in Y. rewrite app_assoc in Y. apply app_inj_tail in Y as [Y ->]. eauto.
Qed.
Theorem C33_rejected : forall sql ts l1 x y l2 s, tokens sql ts -> ts = l1 ++ x :: y :: l2 -> t_code x = TOK_DATE -> core y = (TOK_STRING, TVStr s) -> ~ date_text s -> rejects sql.
Proof.
  intros sql ts l1 x y l2 s T -> CX CY ND buf0 r e P. destruct (e_valid e) eqn:V; [|reflexivity]. exfalso. apply ND, scan_date_spec. destruct (valid_tree _ _ _ _ _ T P V) as (t & eof & D & Y & K & S). unfold core in CY. injection CY as CY VY.
  assert (SX : sym_of x = sym_of_code TOK_DATE) by (unfold sym_of; now rewrite CX). assert (SY : sym_of y = sym_of_code TOK_STRING) by (unfold sym_of; now rewrite CY).
  change (l1 ++ x :: y :: l2) with (l1 ++ [x] ++ y :: l2) in Y. rewrite app_assoc in Y. destruct (before_eof _ _ _ _ _ Y K) as (l2' & -> & Y'); [rewrite SY; vm_compute; discriminate|]. rewrite <- app_assoc in Y'.
  destruct (neighbours D Y') as (q & ts1 & ts2 & l & m & a & b & il & SB & Y1 & Y2 & _ & _ & I & _). rewrite SX, SY, date_meeting in I. destruct I as [I|[]]. injection I as <- <-.
  destruct (sub_derives SB D) as (X & D'). destruct (sub_sem SB S) as (k & S'). destruct (date_leaves _ _ _ D' S') as (a' & b' & E & SD).
  assert (YY : yields (ts1 ++ ts2) = a ++ x :: y :: b) by (rewrite yields_app, Y1, Y2; now rewrite <- app_assoc). rewrite E in YY. cbn in YY. destruct a as [|? [|? [|? ?]]]; try discriminate YY. injection YY as -> ->.
  unfold token_val in SD. rewrite VY in SD. exact SD.
Qed.
(** YYYY-MM-DD is a date, nothing longer that starts like this is. *)
Lemma scan_d_width ds : forall w r, forallb is_digit ds = true -> List.length ds = w -> w <> 0 -> scan_d w (ds ++ r) = Some (digits_val ds, r).
Proof.
  intros w r F L N. pose proof (scan_digits_all ds w 0 0 r F ltac:(lia) (or_introl (eq_sym L))) as SD. destruct ds as [|d ds]; [cbn in L; lia|]. assert (D0 : is_digit d = true) by (cbn [forallb] in F; now apply andb_prop in F). destruct (digit_facts _ D0) as (S0 & F1 & F2).
  unfold scan_d. cbn [app skip_space]. rewrite S0, F1, F2. cbn [orb]. cbn [app] in SD. rewrite SD. reflexivity.
Qed.
Theorem C33_iso : forall y m d rest, forallb is_digit (y ++ m ++ d) = true -> List.length y = 4 -> List.length m = 2 -> List.length d = 2 -> (date_text (y ++ dash ++ m ++ dash ++ d ++ rest) <-> rest = []).
Proof.
  intros y m d rest F LY LM LD. rewrite !forallb_app in F. apply andb_prop in F as [F1 F]. apply andb_prop in F as [F2 F3]. rewrite <- scan_date_spec. unfold scan_date, dash. rewrite (scan_d_width y 4 _ F1 LY) by lia. cbn [scan_dash app]. change (byte_eqb "-"%char "-"%char) with true. cbv iota.
  rewrite (scan_d_width m 2 _ F2 LM) by lia. cbn [scan_dash app]. change (byte_eqb "-"%char "-"%char) with true. cbv iota. rewrite (scan_d_width d 2 _ F3 LD) by lia. destruct rest; split; congruence.
Qed.
Definition date_literal (s : bytes) : val := expr kExprLiteralDate [(F_name, str s)].
Theorem C33_date_literal : forall s b text, spells ([K TOK_SELECT; K TOK_DATE; (TOK_STRING, TVStr s)] ++ semicolon b) text ->
  (date_text s -> exists v, accepted_with text [v] 0 /\ fget F_selectList v = vec [date_literal s]) /\ (~ date_text s -> rejects text).
Proof.
  intros s b text SP. split.
  - intro D. apply (C06_unparenthesised (XDate s) b); [cbn [fits]; now apply scan_date_spec|constructor|cbn; lia|exact SP].
  - intro ND. destruct (spells_tokens SP) as (ts & T & ET). cbn [app map] in ET. destruct ts as [|a ts]; [discriminate|]. destruct ts as [|x ts]; [discriminate|]. destruct ts as [|y ts]; [discriminate|]. cbn [map] in ET. injection ET as _ _ E1 _ E2 E2' _.
    apply (C33_rejected text (a :: x :: y :: ts) [a] x y ts s T eq_refl E1); [unfold core; congruence|exact ND].
Qed.
(** The same in VALUES lists. *)
Theorem C33_date_values : forall s t b text, spells ([K TOK_INSERT; K TOK_INTO; Id t; K TOK_VALUES; K 40; K TOK_DATE; (TOK_STRING, TVStr s); K 41] ++ semicolon b) text ->
  (date_text s -> exists v, accepted_with text [v] 0 /\ fget F_values v = vec [date_literal s]) /\ (~ date_text s -> rejects text).
Proof.
  intros s t b text SP. set (st := SInsert (mkTN None t) [] [CPlain (XLit (VLDate s))]). assert (LG : stmt_legal st) by (split; [reflexivity|constructor]). assert (ST : q_stack (p_stmt st) <= 196) by (vm_compute; lia). split.
  - intro D. exists (finished st). split; [|reflexivity]. change 0 with (q_params (p_stmt st)). apply (stmt_accepted st b); [exact LG|exact ST|exact SP|]. apply scan_date_spec in D. cbn. now rewrite D.
  - intro ND. apply (stmt_rejected st b); [exact LG|exact ST|exact SP|]. cbn. destruct (scan_date s) eqn:E; [|reflexivity]. apply scan_date_spec in E. contradiction.
Qed.
Example C33_example : date_text (la "2024-02-30") /\ date_text (la " 1- +2-3") /\ ~ date_text (la "2024-02-3x") /\ ~ date_text (la "2024-2-3 ") /\ ~ date_text (la "12024-01-01") /\
  forallb printable ([K TOK_SELECT; K TOK_DATE; (TOK_STRING, TVStr (la "2024-02-30"))] ++ semicolon true) = true.
Proof. rewrite <- !scan_date_spec. repeat split; try (vm_compute; discriminate). Qed.

(** ** C34: interval literals *)
Definition unit_word (u : unit_) (plural : bool) : bytes :=
  match u with Second => la "second" | Minute => la "minute" | Hour => la "hour" | Day => la "day" | Month => la "month" | Year => la "year" end ++ if plural then la "s" else [].
Definition int_range (n : Z) : Prop := (-2147483648 <= n <= 2147483647)%Z.
Lemma unit_lower w u pl : casecmp w (unit_word u pl) = true -> unit_of w = Some (unit_obj u).
Proof. unfold casecmp. intro H. apply bytes_eqb_eq in H. unfold unit_of, casecmp. rewrite H. destruct u, pl; reflexivity. Qed.
Lemma unit_of_spec w f : unit_of w = Some f <-> exists u pl, casecmp w (unit_word u pl) = true /\ f = unit_obj u.
Proof.
  split; [|intros (u & pl & C & ->); now apply unit_lower with pl]. unfold unit_of. intro H.
  repeat (match type of H with (if ?a || ?b then _ else _) = _ => destruct a eqn:?A; [injection H as <-|destruct b eqn:?B; [injection H as <-|cbn [orb] in H]] end); [..|discriminate H];
    match goal with E : casecmp w (la ?s) = true |- _ => first
      [ exists Second, false; split; [exact E|reflexivity] | exists Second, true; split; [exact E|reflexivity] | exists Minute, false; split; [exact E|reflexivity] | exists Minute, true; split; [exact E|reflexivity]
      | exists Hour, false; split; [exact E|reflexivity] | exists Hour, true; split; [exact E|reflexivity] | exists Day, false; split; [exact E|reflexivity] | exists Day, true; split; [exact E|reflexivity]
      | exists Month, false; split; [exact E|reflexivity] | exists Month, true; split; [exact E|reflexivity] | exists Year, false; split; [exact E|reflexivity] | exists Year, true; split; [exact E|reflexivity] ] end.
Qed.
Lemma lower_space c : is_space c = true -> lower c = c.
Proof. intro H. unfold is_space, in_range in H. unfold lower. destruct (is_upper c) eqn:U; [|reflexivity]. unfold is_upper, in_range in U. lia. Qed.
Lemma word_no_space w u pl : casecmp w (unit_word u pl) = true -> forallb (fun c => negb (is_space c)) w = true /\ w <> [] /\ List.length w <= 7 /\ match w with c :: _ => is_digit c = false | [] => True end.
Proof.
  unfold casecmp. intro H. apply bytes_eqb_eq in H. assert (L : map lower (unit_word u pl) = unit_word u pl) by (destruct u, pl; reflexivity). rewrite L in H. split; [|split; [|split]].
  - apply forallb_forall. intros c I. destruct (is_space c) eqn:S; [|reflexivity]. exfalso. assert (J : In (lower c) (unit_word u pl)) by (rewrite <- H; now apply in_map). rewrite (lower_space _ S) in J. assert (F : forallb (fun c => negb (is_space c)) (unit_word u pl) = true) by (destruct u, pl; reflexivity).
    rewrite forallb_forall in F. specialize (F _ J). now rewrite S in F.
  - intros ->. destruct u, pl; discriminate H.
  - rewrite <- (map_length lower w), H. destruct u, pl; cbn; lia.
  - destruct w as [|c w]; [exact I|]. destruct (is_digit c) eqn:D; [|reflexivity]. cbn [map] in H. assert (LC : lower c = c) by (unfold lower; destruct (is_upper c) eqn:U; [|reflexivity]; unfold is_upper, is_digit, in_range in *; lia). rewrite LC in H. destruct u, pl; injection H as H _; subst c; discriminate D.
Qed.
(** INTERVAL 'text' UNIT: an integer. *)
Lemma interval_unit_spec s u n f : interval_text s (Some u) = Some (n, f) <-> int_text (List.length s) s n /\ int_range n /\ f = unit_obj u.
Proof.
  unfold interval_text, scan_interval1, fits_int, INT_MIN, INT_MAX, int_range. split.
  - destruct (scan_d (List.length s) s) as [[d r]|] eqn:E; [|discriminate]. destruct ((-2147483648 <=? d) && (d <=? 2147483647))%Z eqn:F; [|discriminate]. destruct r; [|discriminate]. intro H. injection H as <- <-. apply scan_d_spec in E as (t & ES & I). rewrite app_nil_r in ES. subst t. split; [exact I|]. split; [lia|reflexivity].
  - intros (I & R & ->). rewrite <- (app_nil_r s) at 2. rewrite (scan_d_reads (List.length s) s n []); [|exact I|exact Logic.I]. replace ((-2147483648 <=? n) && (n <=? 2147483647))%Z with true by lia. reflexivity.
Qed.
Lemma scan_word_all w : forall k, forallb (fun c => negb (is_space c)) w = true -> List.length w <= k -> scan_word k w = (w, []).
Proof. induction w as [|c w IH]; intros k F L; [now destruct k|]. cbn [forallb List.length] in *. apply andb_prop in F as [F1 F2]. destruct k as [|k]; [lia|]. cbn [scan_word]. apply negb_true_iff in F1. rewrite F1, IH; [reflexivity|exact F2|lia]. Qed.
Lemma scan_word_split k : forall s w r, scan_word k s = (w, r) -> s = w ++ r /\ forallb (fun c => negb (is_space c)) w = true.
Proof.
  induction k as [|k IH]; intros s w r E; cbn [scan_word] in E; [injection E as <- <-; auto|]. destruct s as [|c s]; [injection E as <- <-; auto|]. destruct (is_space c) eqn:S; [injection E as <- <-; auto|]. destruct (scan_word k s) as [x r'] eqn:E'. injection E as <- <-.
  destruct (IH _ _ _ E') as [-> F]. cbn [app forallb]. rewrite S. auto.
Qed.
Lemma int_text_mono w w' s n : w <= w' -> int_text w s n -> int_text w' s n.
Proof. intros L [b sg ds EB SG FD NE LW]. constructor; auto. lia. Qed.
(** INTERVAL 'text': an integer and the word of a unit, in any case, with or without s. *)
Lemma interval_word_spec s n f : interval_text s None = Some (n, f) <-> exists t blanks w u pl, s = t ++ blanks ++ w /\ int_text (List.length s) t n /\ forallb is_space blanks = true /\ casecmp w (unit_word u pl) = true /\ int_range n /\ f = unit_obj u.
Proof.
  unfold interval_text, scan_interval2, fits_int, INT_MIN, INT_MAX, int_range. split.
  - destruct (scan_d (List.length s) s) as [[d r]|] eqn:E; [|discriminate]. destruct ((-2147483648 <=? d) && (d <=? 2147483647))%Z eqn:F; [|discriminate]. destruct (scan_word 7 (skip_space r)) as [w r'] eqn:W. destruct w as [|c w]; [discriminate|]. destruct r'; [|discriminate].
    destruct (unit_of (c :: w)) as [g|] eqn:U; [|discriminate]. intro H. injection H as <- <-. apply unit_of_spec in U as (u & pl & C & ->). apply scan_word_split in W as [W _]. rewrite app_nil_r in W. destruct (skip_space_split r) as (b & EB & FB). rewrite W in EB. apply scan_d_spec in E as (t & ES & I).
    exists t, b, (c :: w), u, pl. split; [rewrite ES; now rewrite EB at 1|]. split; [exact I|]. split; [exact FB|]. split; [exact C|]. split; [lia|reflexivity].
  - intros (t & b & w & u & pl & ES & I & FB & C & R & ->). destruct (word_no_space _ _ _ C) as (NS & NE & L7 & ND). rewrite ES at 2. rewrite (scan_d_reads (List.length s) t n); [|exact I|].
    2:{ destruct b as [|x b]; [cbn [app]; destruct w; [exact Logic.I|exact ND]|]. cbn [app forallb] in *. apply andb_prop in FB as [FB _]. unfold is_space, is_digit, in_range in *. lia. }
    replace ((-2147483648 <=? n) && (n <=? 2147483647))%Z with true by lia. rewrite skip_blanks; [|exact FB|destruct w as [|x w]; [exact Logic.I|cbn [forallb] in NS; apply andb_prop in NS as [NS _]; now apply negb_true_iff in NS]].
    rewrite (scan_word_all w 7 NS L7). destruct w as [|x w]; [now elim NE|]. now rewrite (unit_lower _ _ _ C).
Qed.
(** All ways to write an interval have the same value. *)
Definition interval_literal (n : Z) (u : unit_) : val := interval n (unit_obj u).
Theorem C34_same_value : forall n u b text, int_range n ->
  (forall s, int_text (List.length s) s n -> spells ([K TOK_SELECT; K TOK_INTERVAL; (TOK_STRING, TVStr s); unit_tok u] ++ semicolon b) text -> exists v, accepted_with text [v] 0 /\ fget F_selectList v = vec [interval_literal n u]) /\
  (forall s blanks w pl, int_text (List.length s) s n -> forallb is_space blanks = true -> casecmp w (unit_word u pl) = true ->
     spells ([K TOK_SELECT; K TOK_INTERVAL; (TOK_STRING, TVStr (s ++ blanks ++ w))] ++ semicolon b) text -> exists v, accepted_with text [v] 0 /\ fget F_selectList v = vec [interval_literal n u]) /\
  (forall pl : bool, spells ([K TOK_SELECT; Num n; if pl then units_tok u else unit_tok u] ++ semicolon b) text -> exists v, accepted_with text [v] 0 /\ fget F_selectList v = vec [interval_literal n u]).
Proof.
  intros n u b text R. split; [|split].
  - intros s I SP. assert (E : interval_text s (Some u) = Some (n, unit_obj u)) by (apply interval_unit_spec; auto). destruct (C06_unparenthesised (XIntervalText s (Some u)) b text) as (v & A & L); [cbn [fits]; now rewrite E|constructor|cbn; lia|exact SP|]. exists v. split; [exact A|]. rewrite L. cbn [xobj]. now rewrite E.
  - intros s bl w pl I FB C SP. assert (E : interval_text (s ++ bl ++ w) None = Some (n, unit_obj u)). { apply interval_word_spec. exists s, bl, w, u, pl. split; [reflexivity|]. split; [eapply int_text_mono; [|exact I]; rewrite app_length; lia|auto]. }
    destruct (C06_unparenthesised (XIntervalText (s ++ bl ++ w) None) b text) as (v & A & L); [cbn [fits]; now rewrite E|constructor|cbn; lia|exact SP|]. exists v. split; [exact A|]. rewrite L. cbn [xobj]. now rewrite E.
  - intros pl SP. exact (C06_unparenthesised (XInterval n u pl) b text eq_refl (Forall_nil _) ltac:(cbn; lia) SP).
Qed.
(** An INTERVAL 'text' [UNIT] in a valid input is one of these. *)
Definition unit_codes : list Z := [TOK_SECOND; TOK_MINUTE; TOK_HOUR; TOK_DAY; TOK_MONTH; TOK_YEAR].
Definition code_check (c : Z) (i : nat) : bool := negb (N.eqb (sym_of_code (Z.of_nat i)) (sym_of_code c)) || (Z.of_nat i =? c)%Z.
Lemma code_checked : forallb (fun c => forallb (code_check c) (seq 0 437)) unit_codes = true. Proof. vm_compute. reflexivity. Qed.
Lemma unit_code t c : In c unit_codes -> sym_of t = sym_of_code c -> t_code t = c.
Proof.
  intros I E. assert (NZ : sym_of_code c <> 0%N /\ sym_of_code c <> 2%N) by (cbn [unit_codes In] in I; repeat (destruct I as [<-|I]; [vm_compute; split; discriminate|]); destruct I). destruct NZ as [N0 N2].
  destruct (Z_le_gt_dec (t_code t) 0) as [L|L]; [exfalso; apply N0; rewrite <- E; unfold sym_of, sym_of_code; now replace (t_code t <=? 0)%Z with true by lia|].
  destruct (Z_le_gt_dec (t_code t) 436) as [L'|L'].
  - pose proof (proj1 (forallb_forall _ _) code_checked c I) as K. cbv beta in K. assert (J : In (Z.to_nat (t_code t)) (seq 0 437)) by (apply in_seq; lia). pose proof (proj1 (forallb_forall _ _) K _ J) as Q. unfold code_check in Q. rewrite Z2Nat.id in Q by lia. unfold sym_of in E. rewrite E, N.eqb_refl in Q. cbn [negb orb] in Q. lia.
  - exfalso. apply N2. rewrite <- E. unfold sym_of, sym_of_code. replace (t_code t <=? 0)%Z with false by lia. unfold yytranslate_of. change YYMAXUTOK with 436%Z. replace ((0 <=? t_code t) && (t_code t <=? 436))%Z with false by lia. reflexivity.
Qed.
Lemma interval_meeting : meeting (sym_of_code TOK_INTERVAL) (sym_of_code TOK_STRING) = [(296%N, [1]); (297%N, [1])]. Proof. vm_compute. reflexivity. Qed.
Lemma unit_meeting c : In c unit_codes -> meeting (sym_of_code TOK_STRING) (sym_of_code c) = [(296%N, [2])].
Proof. intro I. cbn [unit_codes In] in I. repeat (destruct I as [<-|I]; [vm_compute; reflexivity|]). destruct I. Qed.
Definition field_check (p : N * (N * list N)) : bool := if N.eqb (fst (snd p)) S_datetime_field then match snd (snd p) with [x] => existsb (N.eqb x) (map sym_of_code unit_codes) | _ => false end else true.
Lemma field_checked : forallb field_check grammar = true. Proof. vm_compute. reflexivity. Qed.
Lemma field_token t : derives S_datetime_field t -> exists k, yield t = [k] /\ In (t_code k) unit_codes.
Proof.
  intro D. inversion D as [k E|r lhs rhs ts P DL]; subst; [pose proof (sym_terminal k) as T; rewrite E in T; discriminate T|]. pose proof (proj1 (forallb_forall _ _) field_checked _ (production_mem P)) as C. unfold field_check in C. cbn [fst snd] in C. rewrite N.eqb_refl in C.
  destruct rhs as [|x [|? ?]]; try discriminate C. apply existsb_exists in C as (z & I & E). apply N.eqb_eq in E. subst z. inversion DL as [|? ? t1 ? D1 DL1]; subst. inversion DL1; subst. apply in_map_iff in I as (c & SC & IC).
  assert (TX : terminal x = true) by (rewrite <- SC; clear -IC; cbn [unit_codes In] in IC; repeat (destruct IC as [<-|IC]; [vm_compute; reflexivity|]); destruct IC). destruct (derives_terminal _ _ D1 TX) as (k & -> & SK). exists k. split; [reflexivity|]. rewrite (unit_code k c IC); [exact IC|congruence].
Qed.
Lemma interval_leaves r ts X k : In r [296%N; 297%N] -> derives X (Node r ts) -> sem (Node r ts) k <> None ->
  exists a b rest, ts = Leaf a :: Leaf b :: rest /\ (r = 296%N -> (exists d u, scan_interval1 (text (token_val b)) = SYes d u) /\ exists k, yields rest = [k] /\ In (t_code k) unit_codes) /\
    (r = 297%N -> rest = [] /\ exists d u f, scan_interval2 (text (token_val b)) = SYes d u /\ unit_of u = Some f).
Proof.
  intros [<-|[<-|[]]] D S; inversion D as [|? ? rhs ? P DL]; subst.
  - assert (E : production 296 = Some (X, rhs)) by exact P. vm_compute in E. injection E as <- <-. inversion DL as [|? ? t1 ? D1 DL1]; subst. inversion DL1 as [|? ? t2 ? D2 DL2]; subst. inversion DL2 as [|? ? t3 ? D3 DL3]; subst. inversion DL3; subst.
    destruct (derives_terminal _ _ D1 eq_refl) as (a & -> & _). destruct (derives_terminal _ _ D2 eq_refl) as (b & -> & _). exists a, b, [t3]. split; [reflexivity|]. split; [|discriminate]. intros _. rewrite sem_node in S. cbn [sems] in S.
    change (sem (Leaf a) k) with (Some (token_val a, k)) in S. cbv iota beta in S. change (sem (Leaf b) k) with (Some (token_val b, k)) in S. cbv iota beta in S. destruct (sem t3 k) as [[v3 k3]|]; [|exfalso; apply S; reflexivity]. cbv iota beta in S. split.
    + change (asem 296 k3 [token_val a; token_val b; v3]) with (match scan_interval1 (text (token_val b)) with SYes n _ => Some (interval n v3) | _ => None end) in S. destruct (scan_interval1 (text (token_val b))) as [|d u|]; [now elim S|eauto|now elim S].
    + destruct (field_token _ D3) as (z & Y & I). exists z. cbn [yields flat_map]. rewrite app_nil_r. auto.
  - assert (E : production 297 = Some (X, rhs)) by exact P. vm_compute in E. injection E as <- <-. inversion DL as [|? ? t1 ? D1 DL1]; subst. inversion DL1 as [|? ? t2 ? D2 DL2]; subst. inversion DL2; subst.
    destruct (derives_terminal _ _ D1 eq_refl) as (a & -> & _). destruct (derives_terminal _ _ D2 eq_refl) as (b & -> & _). exists a, b, []. split; [reflexivity|]. split; [discriminate|]. intros _. split; [reflexivity|]. rewrite sem_node in S. cbn [sems] in S.
    change (sem (Leaf a) k) with (Some (token_val a, k)) in S. cbv iota beta in S. change (sem (Leaf b) k) with (Some (token_val b, k)) in S. cbv iota beta in S.
    change (asem 297 k [token_val a; token_val b]) with (match scan_interval2 (text (token_val b)) with SYes n u => match unit_of u with Some f => Some (interval n f) | None => None end | _ => None end) in S.
    destruct (scan_interval2 (text (token_val b))) as [|d u|]; [now elim S| |now elim S]. destruct (unit_of u) as [f|] eqn:U; [eauto|now elim S].
Qed.
(** Which unit token follows. *)
Definition next_unit (l : list token) : option unit_ := match l with [] => None | t :: _ => find (fun u => (t_code t =? fst (unit_tok u))%Z) [Second; Minute; Hour; Day; Month; Year] end.
Theorem C34_rejected_partial : forall sql ts l1 x y l2 s, tokens sql ts -> ts = l1 ++ x :: y :: l2 -> t_code x = TOK_INTERVAL -> core y = (TOK_STRING, TVStr s) -> interval_text s (next_unit l2) = None -> rejects sql.
Proof.
  intros sql ts l1 x y l2 s T -> CX CY NI buf0 r e P. destruct (e_valid e) eqn:V; [|reflexivity]. exfalso. destruct (valid_tree _ _ _ _ _ T P V) as (t & eof & D & Y & K & S). unfold core in CY. injection CY as CY VY.
  assert (TV : text (token_val y) = s) by (unfold token_val; now rewrite VY).
  assert (SX : sym_of x = sym_of_code TOK_INTERVAL) by (unfold sym_of; now rewrite CX). assert (SY : sym_of y = sym_of_code TOK_STRING) by (unfold sym_of; now rewrite CY).
  change (l1 ++ x :: y :: l2) with (l1 ++ [x] ++ y :: l2) in Y. rewrite app_assoc in Y. destruct (before_eof _ _ _ _ _ Y K) as (l2' & -> & Y'); [rewrite SY; vm_compute; discriminate|]. rewrite <- app_assoc in Y'.
  assert (NU : next_unit (l2' ++ [eof]) = next_unit l2').
  { destruct l2' as [|z l2']; [|reflexivity]. cbn [app next_unit]. destruct (find _ _) as [u|] eqn:F; [|reflexivity]. apply find_some in F as [_ F]. exfalso. unfold sym_of in K. replace (t_code eof) with (fst (unit_tok u)) in K by lia. destruct u; vm_compute in K; discriminate K. }
  rewrite NU in NI. destruct (next_unit l2') as [u|] eqn:U.
  - destruct l2' as [|z l2']; [discriminate U|]. cbn [next_unit] in U. apply find_some in U as [_ U]. assert (CZ : t_code z = fst (unit_tok u)) by lia. assert (IZ : In (t_code z) unit_codes) by (rewrite CZ; destruct u; cbn; auto 10).
    change (l1 ++ [x] ++ y :: z :: l2') with (l1 ++ [x] ++ (y :: z :: l2')) in Y'. rewrite app_assoc in Y'. destruct (neighbours D Y') as (q & ts1 & ts2 & l & m & a & b & il & SB & Y1 & Y2 & _ & _ & I & IL).
    rewrite SY in I. change (sym_of z) with (sym_of_code (t_code z)) in I. rewrite (unit_meeting _ IZ) in I. destruct I as [I|[]]. injection I as <- <-. destruct IL as [IL|[]].
    destruct (sub_derives SB D) as (X & D'). destruct (sub_sem SB S) as (k & S'). destruct (interval_leaves 296%N _ _ _ (or_introl eq_refl) D' S') as (a' & b' & rest & E & H & _). destruct (H eq_refl) as ((d & w & SI) & _).
    destruct ts1 as [|u1 [|u2 [|? ?]]]; try discriminate IL. cbn [app] in E. injection E as -> -> _. cbn in Y1. destruct a as [|? [|? [|? ?]]]; try discriminate Y1. injection Y1 as _ ->. rewrite TV in SI. unfold interval_text in NI. now rewrite SI in NI.
  - destruct (neighbours D Y') as (q & ts1 & ts2 & l & m & a & b & il & SB & Y1 & Y2 & _ & EL & I & IL). rewrite SX, SY, interval_meeting in I.
    assert (Q : In q [296%N; 297%N]) by (destruct I as [I|[I|[]]]; injection I as <- _; cbn; auto). assert (L1 : List.length ts1 = 1) by (destruct I as [I|[I|[]]]; injection I as _ <-; destruct IL as [IL|[]]; auto).
    destruct (sub_derives SB D) as (X & D'). destruct (sub_sem SB S) as (k & S'). destruct (interval_leaves q _ _ _ Q D' S') as (a' & b' & rest & E & H6 & H7). destruct ts1 as [|u1 [|? ?]]; try discriminate L1. cbn [app] in E. injection E as -> ->. cbn [yields flat_map yield app] in Y2. fold (yields rest) in Y2. injection Y2 as -> Y2.
    destruct Q as [<-|[<-|[]]].
    + destruct (H6 eq_refl) as (_ & z & YR & IZ). rewrite YR in Y2. subst b. rewrite EL in U. cbn [app next_unit] in U. clear -U IZ. cbn [unit_codes In] in IZ. cbn [find unit_tok fst K] in U. repeat (destruct IZ as [E|IZ]; [rewrite <- E in U; vm_compute in U; discriminate U|]). destruct IZ.
    + destruct (H7 eq_refl) as (_ & d & w & f & SI & UO). rewrite TV in SI. unfold interval_text in NI. now rewrite SI, UO in NI.
Qed.
Example C34_example : int_text (List.length (la " -12")) (la " -12") (-12) /\ interval_text (la "3 HourS") None = Some (3%Z, kDatetimeHour) /\ interval_text (la "7") (Some Year) = Some (7%Z, kDatetimeYear) /\
  interval_text (la "7 weeks") None = None /\ interval_text (la "x") (Some Day) = None /\ forallb printable [K TOK_SELECT; Num 3; units_tok Day] = true.
Proof.
  split; [exact (IntText 4 (la " ") ["-"%char] (la "12") eq_refl (or_intror (or_intror eq_refl)) eq_refl ltac:(discriminate) ltac:(cbn; lia))|]. repeat split; vm_compute; reflexivity.
Qed.

(** ** The words used above *)
(** [is_space], [is_digit] and [casecmp] in the statements above are definitions of the model.  This fixes them without the model: white space are the six
    characters of isspace in the C locale; digits the ten digits; casecmp compares strings letter by letter, where a capital letter and the small
    letter with the same place in the alphabet are the same. *)
Definition capital_letters : bytes := la "ABCDEFGHIJKLMNOPQRSTUVWXYZ".
Definition small_letters : bytes := la "abcdefghijklmnopqrstuvwxyz".
Definition same_letter (x y : ascii) : Prop :=
  x = y \/ In (x, y) (combine capital_letters small_letters) \/ In (y, x) (combine capital_letters small_letters).
Fixpoint letters_agree (a b : bytes) : Prop :=
  match a, b with [], [] => True | x :: a', y :: b' => same_letter x y /\ letters_agree a' b' | _, _ => False end.
Lemma space_codes c : is_space c = true <-> In (nat_of_ascii c) [9; 10; 11; 12; 13; 32].
Proof. destruct c as [[] [] [] [] [] [] [] []]; vm_compute; split; intro H; try discriminate H; try reflexivity; repeat (destruct H as [H|H]; [discriminate H|]); try destruct H; auto 10. Qed.
Lemma digit_codes c : is_digit c = true <-> In c (la "0123456789").
Proof. destruct c as [[] [] [] [] [] [] [] []]; vm_compute; split; intro H; try discriminate H; try reflexivity; repeat (destruct H as [H|H]; [discriminate H|]); try destruct H; auto 20. Qed.
Definition lower_spec (c : ascii) : ascii := match find (fun p => byte_eqb (fst p) c) (combine capital_letters small_letters) with Some p => snd p | None => c end.
Lemma lower_pairs c : lower c = lower_spec c.
Proof. destruct c as [[] [] [] [] [] [] [] []]; vm_compute; reflexivity. Qed.
Lemma pairs_lower x y : In (x, y) (combine capital_letters small_letters) -> lower x = y /\ lower y = y.
Proof. intro I. vm_compute in I. repeat (destruct I as [I|I]; [injection I as <- <-; now vm_compute|]). destruct I. Qed.
Lemma lower_cases c : lower c = c \/ In (c, lower c) (combine capital_letters small_letters).
Proof.
  rewrite lower_pairs. unfold lower_spec. destruct (find _ _) as [[a b]|] eqn:F; [right|now left]. apply find_some in F as [I E]. cbn [fst] in E. apply byte_eqb_eq in E. subst a. exact I.
Qed.
Lemma small_unique x x' y : In (x, y) (combine capital_letters small_letters) -> In (x', y) (combine capital_letters small_letters) -> x = x'.
Proof. 
  assert (N : NoDup (map snd (combine capital_letters small_letters))) by (vm_compute; repeat (constructor; [cbn; intuition discriminate|]); constructor).
  revert N. generalize (combine capital_letters small_letters). induction l as [|[a b] l IH]; intros N I J; [destruct I|]. cbn [map snd] in N. inversion N as [|? ? NI N']; subst.
  destruct I as [I|I], J as [J|J].
  - congruence.
  - injection I as -> ->. elim NI. apply (in_map snd) in J. exact J.
  - injection J as -> ->. elim NI. apply (in_map snd) in I. exact I.
  - now apply IH.
Qed.
Lemma same_letter_lower x y : same_letter x y <-> lower x = lower y.
Proof.
  split.
  - intros [->|[I|I]]; [reflexivity| |]; destruct (pairs_lower _ _ I); congruence.
  - intro E. destruct (lower_cases x) as [X|X], (lower_cases y) as [Y|Y].
    + left. congruence.
    + right; right. rewrite <- E, X in Y. exact Y.
    + right; left. rewrite E, Y in X. exact X.
    + left. rewrite E in X. exact (small_unique _ _ _ X Y).
Qed.
Lemma casecmp_letters a : forall b, casecmp a b = true <-> letters_agree a b.
Proof.
  unfold casecmp. induction a as [|x a IH]; intros [|y b]; cbn [map letters_agree]; try (split; [discriminate|contradiction]); [split; reflexivity|].
  rewrite same_letter_lower. specialize (IH b). split; [intro H; apply bytes_eqb_eq in H; injection H as E1 E2; split; [exact E1|apply (proj1 IH); rewrite E2; apply bytes_eqb_refl]|intros [E1 E2]; apply (proj2 IH), bytes_eqb_eq in E2; rewrite E1, E2; apply bytes_eqb_refl].
Qed.
Theorem C34_vocabulary :
  (forall c, is_space c = true <-> In (nat_of_ascii c) [9; 10; 11; 12; 13; 32]) /\
  (forall c, is_digit c = true <-> In c (la "0123456789")) /\
  (forall a b, casecmp a b = true <-> letters_agree a b) /\
  digits_val [] = 0%Z /\ (forall ds i, i < 10 -> digits_val (ds ++ [nth i (la "0123456789") "0"%char]) = (10 * digits_val ds + Z.of_nat i)%Z).
Proof.
  split; [exact space_codes|]. split; [exact digit_codes|]. split; [intros; apply casecmp_letters|]. split; [reflexivity|].
  intros ds i L. unfold digits_val. rewrite fold_left_app. cbn [fold_left]. replace (bz (nth i (la "0123456789") "0"%char)) with (48 + Z.of_nat i)%Z; [lia|].
  do 10 (destruct i as [|i]; [reflexivity|]). lia.
Qed.
Example C34_vocabulary_example : letters_agree (la "MoNtHs") (la "months") /\ ~ letters_agree (la "month") (la "monty") /\ digits_val (la "2147483647") = 2147483647%Z /\ is_space (ascii_of_nat 11) = true.
Proof. rewrite <- !casecmp_letters. vm_compute. repeat split; discriminate. Qed.
