(** What the rules of the scanner can match: letter case, line ends, words, numbers.  No code of /repo. *)
From Verif Require Export LexScan.
From Verif Require Import LexCert TableCheck.
From Coq Require Import ZifyBool ZifyNat ZifyN.
Local Open Scope Z_scope.
Set Implicit Arguments.
Unset Strict Implicit.

(** ** Letter case *)
Definition same_case (a b : bytes) : Prop := map lower a = map lower b.
Fixpoint classes (f : bool -> list (Z * Z) -> bool) (x : rx) : bool :=
  match x with Nothing | Eps => true | Cls n l => f n l | Cat a b | Alt a b => classes f a && classes f b | Star a => classes f a end.
Definition folds (n : bool) (l : list (Z * Z)) : bool := forallb (fun z => Bool.eqb (in_class n l (byte z)) (in_class n l (lower (byte z)))) (zrange 256 0).
Lemma folds_ok n l c : folds n l = true -> in_class n l c = in_class n l (lower c).
Proof.
  unfold folds. intro A. assert (I : In (bz c) (zrange 256 0)) by (apply zrange_In; pose proof (bz_range c); lia).
  pose proof (proj1 (forallb_forall _ _) A _ I) as E. cbn beta in E. apply eqb_prop in E. rewrite byte_bz in E. exact E.
Qed.
Lemma matches_lower x w : classes folds x = true -> matches x w -> forall w', same_case w w' -> matches x w'.
Proof.
  intros C M. induction M as [|n l c I|a b u v M1 IH1 M2 IH2|a b u M IH|a b u M IH|a|a u v M1 IH1 M2 IH2]; intros w' E; unfold same_case in E.
  - destruct w'; [constructor|discriminate].
  - destruct w' as [|d [|? ?]]; try discriminate. injection E as E. constructor. cbn [classes] in C. rewrite (folds_ok c C), E, <- (folds_ok d C) in I. exact I.
  - cbn [classes] in C. apply andb_prop in C as [C1 C2]. rewrite map_app in E. symmetry in E. apply map_eq_app in E as (w1 & w2 & -> & E1 & E2). constructor; [apply IH1|apply IH2]; auto; unfold same_case; congruence.
  - cbn [classes] in C. apply andb_prop in C as [C1 C2]. apply m_left. auto.
  - cbn [classes] in C. apply andb_prop in C as [C1 C2]. apply m_right. auto.
  - destruct w'; [constructor|discriminate].
  - rewrite map_app in E. symmetry in E. apply map_eq_app in E as (w1 & w2 & -> & E1 & E2). constructor; [apply IH1|apply IH2]; auto; unfold same_case; congruence.
Qed.
Definition rule_folds (p : Z * (where_ * rx)) : bool := classes folds (snd (snd p)).
Lemma rules_fold : forallb rule_folds flex_rules = true.
Proof. vm_cast_no_check (eq_refl true). Qed.
Lemma matched_lower s r w w' : same_case w w' -> matched (active s) r w -> matched (active s) r w'.
Proof.
  intros E (x & I & M). exists x. split; [exact I|]. destruct (active_In I) as (wh & I2 & _). pose proof (proj1 (forallb_forall _ _) rules_fold _ I2) as F. eapply matches_lower; eauto.
Qed.
Lemma same_case_sym a b : same_case a b -> same_case b a. Proof. unfold same_case. auto. Qed.
Lemma same_case_firstn n a b : same_case a b -> same_case (firstn n a) (firstn n b).
Proof. unfold same_case. rewrite <- !firstn_map. congruence. Qed.
Lemma same_case_skipn n a b : same_case a b -> same_case (skipn n a) (skipn n b).
Proof. unfold same_case. rewrite <- !skipn_map. congruence. Qed.
Lemma same_case_length a b : same_case a b -> List.length a = List.length b.
Proof. intro E. apply (f_equal (@List.length ascii)) in E. rewrite !map_length in E. exact E. Qed.
Lemma same_case_app a b c d : same_case a b -> same_case c d -> same_case (a ++ c) (b ++ d).
Proof. unfold same_case. rewrite !map_app. congruence. Qed.
Lemma same_case_refl a : same_case a a. Proof. reflexivity. Qed.
Lemma best_lower s rest rest' r n : same_case rest rest' -> best (active s) rest r n -> best (active s) rest' r n.
Proof.
  intros E (L & M & F). split; [rewrite <- (same_case_length E); exact L|]. split; [eapply matched_lower; [apply same_case_firstn; exact E|exact M]|].
  intros r' m Lm Mm. apply (F r' m); [rewrite (same_case_length E); exact Lm|]. eapply matched_lower; [apply same_case_firstn, same_case_sym; exact E|exact Mm].
Qed.
Lemma lower_eq c d : lower c = lower d -> is_alpha c = false -> c = d.
Proof.
  intros E A. unfold lower, is_alpha, is_upper, is_lower, in_range in *. unfold bz in *.
  destruct ((65 <=? Z.of_N (N_of_ascii c)) && (Z.of_N (N_of_ascii c) <=? 90)) eqn:U; [discriminate|]. cbn [orb] in A.
  destruct ((65 <=? Z.of_N (N_of_ascii d)) && (Z.of_N (N_of_ascii d) <=? 90)) eqn:V; [|exact E].
  exfalso. subst c. rewrite N_ascii_embedding in A by lia. lia.
Qed.
Lemma same_case_digits a b : same_case a b -> forallb is_digit a = true -> a = b.
Proof.
  revert b. induction a as [|c a IH]; intros [|d b] E F; try discriminate; [reflexivity|]. injection E as E1 E2. cbn [forallb] in F. apply andb_prop in F as [F1 F2]. f_equal; [|auto].
  apply lower_eq; [exact E1|]. unfold is_digit, is_alpha, is_upper, is_lower, in_range in *. lia.
Qed.
Lemma matches_star_cls n l w : matches (Star (Cls n l)) w -> forallb (in_class n l) w = true.
Proof.
  intro M. remember (Star (Cls n l)) as x eqn:X. induction M; try discriminate X; [reflexivity|]. injection X as ->. rewrite forallb_app, IHM2 by reflexivity. inversion M1 as [|n0 l0 c0 IC| | | | |]; subst. cbn [forallb]. rewrite IC. reflexivity.
Qed.
Lemma star_cls_matches n l w : forallb (in_class n l) w = true -> matches (Star (Cls n l)) w.
Proof. induction w as [|c w IH]; intro F; [constructor|]. cbn [forallb] in F. apply andb_prop in F as [F1 F2]. change (c :: w) with ([c] ++ w). constructor; [constructor; exact F1|auto]. Qed.
Lemma matches_plus_cls n l w : matches (Plus (Cls n l)) w -> w <> [] /\ forallb (in_class n l) w = true.
Proof. intro M. inversion M as [| |a b u v M1 M2| | | |]; subst. inversion M1 as [|n0 l0 c0 IC| | | | |]; subst. apply matches_star_cls in M2. split; [discriminate|]. cbn [forallb app]. rewrite M2, IC. reflexivity. Qed.
Lemma plus_cls_matches n l w : w <> [] -> forallb (in_class n l) w = true -> matches (Plus (Cls n l)) w.
Proof. intros NE F. destruct w as [|c w]; [congruence|]. cbn [forallb] in F. apply andb_prop in F as [F1 F2]. change (c :: w) with ([c] ++ w). constructor; [constructor; exact F1|apply star_cls_matches; exact F2]. Qed.
Lemma rx_181 : rule_rx 181 = Plus Digit. Proof. vm_compute. reflexivity. Qed.
Lemma in_digit c : in_class false [(48, 57)] c = is_digit c.
Proof. unfold in_class, is_digit, in_range. cbn [existsb fst snd]. lia. Qed.
Lemma forallb_ext A (f g : A -> bool) l : (forall x, f x = g x) -> forallb f l = forallb g l.
Proof. intro E. induction l as [|x l IH]; [reflexivity|]. cbn [forallb]. rewrite E, IH. reflexivity. Qed.
Lemma matches_digits w : matches (rule_rx 181) w -> w <> [] /\ forallb is_digit w = true.
Proof. rewrite rx_181. intro M. apply matches_plus_cls in M as [NE M]. split; [exact NE|]. rewrite <- M. apply forallb_ext. intro c. symmetry. apply in_digit. Qed.
Lemma digits_matches w : w <> [] -> forallb is_digit w = true -> matches (rule_rx 181) w.
Proof. intros NE F. rewrite rx_181. apply plus_cls_matches; [exact NE|]. rewrite <- F. apply forallb_ext, in_digit. Qed.

Lemma rule_177_alpha t : matches (rule_rx 177) t -> exists c, t = [c] /\ is_alpha c = false.
Proof.
  unfold rule_rx. vm_compute (find _ _). cbn [snd]. inversion 1 as [|n0 l0 c IC| | | | |]; subst. exists c. split; [reflexivity|]. unfold in_class, is_alpha, is_upper, is_lower, in_range in *. cbn [existsb fst snd] in *. lia.
Qed.
(** Values that differ in letter case only. *)
Definition val_case (v v' : tokval) : Prop :=
  match v, v' with
  | TVNone, TVNone => True
  | TVStr a, TVStr b => same_case a b
  | TVInt a, TVInt b => a = b
  | TVFlt a, TVFlt b => same_case a b
  | _, _ => False
  end.
Lemma same_case_tl a b : same_case a b -> same_case (tl a) (tl b).
Proof. destruct a, b; intro E; try discriminate; [exact E|]. injection E as _ E. exact E. Qed.
Lemma same_case_removelast a : forall b, same_case a b -> same_case (removelast a) (removelast b).
Proof.
  induction a as [|c a IH]; intros [|d b] E; try discriminate; [reflexivity|]. injection E as E1 E2. specialize (IH _ E2). destruct a, b; try discriminate; [reflexivity|].
  unfold same_case in *. cbn [removelast map] in *. rewrite E1. f_equal. exact IH.
Qed.
Lemma run_rule_case s r t t' buf buf' p : 1 <= r <= 189 -> matched (active s) r t -> same_case t t' -> same_case buf buf' ->
  match run_rule r t (mkLex s buf p), run_rule r t' (mkLex s buf' p) with
  | Skip a, Skip b => lx_start a = lx_start b /\ same_case (lx_buf a) (lx_buf b)
  | Ret c v a, Ret c' v' b => c = c' /\ val_case v v' /\ lx_start a = lx_start b /\ same_case (lx_buf a) (lx_buf b)
  | _, _ => False
  end.
Proof.
  intros R M E EB. unfold run_rule. cbn [lx_start lx_buf lx_pos]. rule_cases; cbn [lx_start lx_buf lx_pos val_case]; auto using same_case_refl.
  - apply matched_rule in M as [M _]. assert (r = 177) by lia. subst r. apply rule_177_alpha in M as (c & -> & L). destruct t' as [|d [|? ?]]; try discriminate E. injection E as E.
    rewrite (lower_eq E L). repeat split; auto.
  - apply matched_rule in M as [M _]. assert (r = 181) by lia. subst r. apply matches_digits in M as [_ M]. rewrite <- (same_case_digits E M). destruct (strtoll0 t); cbn [val_case]; auto.
  - repeat split; auto. apply same_case_removelast, same_case_tl, E.
  - split; [reflexivity|]. apply same_case_app; auto. apply same_case_refl.
  - split; [reflexivity|]. apply same_case_app; auto.
  - destruct (token_rule r); cbn [val_case]; auto.
Qed.
Lemma lower_LF c d : lower c = lower d -> byte_eqb c LF = byte_eqb d LF.
Proof.
  intro E. destruct (byte_eqb c LF) eqn:A.
  - apply byte_eqb_eq in A. subst c. rewrite <- (lower_eq E eq_refl). reflexivity.
  - destruct (byte_eqb d LF) eqn:B; [|reflexivity]. apply byte_eqb_eq in B. subst d. rewrite <- (lower_eq (eq_sym E) eq_refl) in A. discriminate A.
Qed.
Lemma user_action_case t : forall t' p, same_case t t' -> user_action t p = user_action t' p.
Proof.
  intros t' p. unfold user_action. generalize (mkPos (ll p) (lc p) (ll p) (lc p) (total p) (slen p)). clear p. revert t'.
  induction t as [|c t IH]; intros [|d t'] p E; try discriminate; [reflexivity|]. injection E as E1 E2. cbn [fold_left]. unfold advance1 at 2 4. rewrite (lower_LF E1). apply IH. exact E2.
Qed.
Lemma run_rule_lxpos r t st : match run_rule r t st with Skip a => lx_pos a = user_action t (lx_pos st) | Ret _ _ a => lx_pos a = user_action t (lx_pos st) end.
Proof. unfold run_rule. rule_cases; cbn [lx_pos]; try reflexivity; [destruct (strtoll0 t)|destruct (token_rule r)]; reflexivity. Qed.
(** Tokens that differ in the letter case of their values only. *)
Definition tok_case (t t' : token) : Prop := t_code t = t_code t' /\ val_case (t_val t) (t_val t') /\ t_pos t = t_pos t' /\ t_len t = t_len t'.
Lemma NUL_case a b : same_case a b -> ~ In NUL a -> ~ In NUL b.
Proof.
  intros E N I. apply N. apply in_split in I as (b1 & b2 & ->). unfold same_case in E. rewrite map_app in E. apply map_eq_app in E as (a1 & a2 & -> & _ & E). apply in_or_app. right.
  destruct a2 as [|c a2]; [discriminate|]. injection E as E _. left. symmetry; apply (lower_eq (eq_sym E) eq_refl).
Qed.
Lemma lex_from_case : forall st rest, is_start (lx_start st) -> ~ In NUL rest -> forall st' rest' len0 ts, lx_start st' = lx_start st -> lx_pos st' = lx_pos st -> same_case (lx_buf st) (lx_buf st') ->
  same_case rest rest' -> lex_from st len0 rest = Some ts -> exists ts', lex_from st' len0 rest' = Some ts' /\ Forall2 tok_case ts ts'.
Proof.
  intros st rest S0 N0. refine (@lex_ind (fun st rest => forall st' rest' len0 ts, lx_start st' = lx_start st -> lx_pos st' = lx_pos st -> same_case (lx_buf st) (lx_buf st') ->
    same_case rest rest' -> lex_from st len0 rest = Some ts -> exists ts', lex_from st' len0 rest' = Some ts' /\ Forall2 tok_case ts ts') _ st rest S0 N0).
  clear. intros st rest ST N IH st' rest' len0 ts E1 E2 E3 ER EQ.
  assert (ST' : is_start (lx_start st')) by (rewrite E1; exact ST). pose proof (NUL_case ER N) as N'.
  rewrite (lex_from_eq len0 ST N) in EQ. rewrite (lex_from_eq len0 ST' N').
  destruct (lex_step_total ST N) as [[-> E]|(r & n & B & L1 & R & E)]; rewrite E in EQ; destruct (lex_step_total ST' N') as [[-> E']|(r' & n' & B' & L1' & R' & E')]; rewrite E'.
  - cbn in EQ. injection EQ as <-. cbn. eexists. split; [reflexivity|]. constructor; [|constructor]. repeat split; cbn; congruence.
  - destruct rest'; [|discriminate ER]. cbn in L1'. lia.
  - destruct rest; [|discriminate ER]. cbn in L1. lia.
  - assert (NE : rest <> []) by (intros ->; cbn in L1; lia). rewrite E1 in B'. pose proof (best_lower ER B) as B2. destruct (best_unique B' B2) as [-> ->]. clear B2.
    destruct st as [s buf p], st' as [s' buf' p']. cbn [lx_start lx_buf lx_pos] in *. subst s' p'.
    pose proof (@run_rule_ok r (firstn n rest) (mkLex s buf p) ST) as P. pose proof (run_rule_lxpos r (firstn n rest) (mkLex s buf p)) as P1. pose proof (run_rule_lxpos r (firstn n rest') (mkLex s buf' p)) as P2.
    cbn [lx_pos] in P1, P2. rewrite <- (user_action_case p (same_case_firstn n ER)) in P2.
    pose proof (@run_rule_case s r (firstn n rest) (firstn n rest') buf buf' p R (proj1 (proj2 B)) (same_case_firstn n ER) E3) as Q.
    destruct (run_rule r (firstn n rest) (mkLex s buf p)) as [st1|c v st1], (run_rule r (firstn n rest') (mkLex s buf' p)) as [st2|c2 v2 st2]; try contradiction.
    + destruct Q as [Q1 Q2]. apply (IH st1 n (proj1 L1) (proj1 P) NE) with (ts := ts); auto; try congruence. apply same_case_skipn. exact ER.
    + destruct Q as (<- & QV & Q1 & Q2). cbn zeta in EQ |- *. rewrite P2, <- P1. destruct (c <=? 0) eqn:C.
      * injection EQ as <-. eexists. split; [reflexivity|]. constructor; [|constructor]. repeat split; auto.
      * destruct (lex_from st1 _ _) as [ts'|] eqn:ET; [|discriminate]. cbn [obind] in EQ. injection EQ as <-.
        destruct (IH st1 n (proj1 L1) (proj1 P) NE st2 (skipn n rest') _ _ (eq_sym Q1) (eq_trans P2 (eq_sym P1)) Q2 (same_case_skipn n ER) ET) as (ts2 & E4 & F). rewrite E4. cbn [obind].
        eexists. split; [reflexivity|]. constructor; [|exact F]. repeat split; auto.
Qed.
Lemma c_string_case a b : same_case a b -> same_case (c_string a) (c_string b).
Proof.
  revert b. induction a as [|c a IH]; intros [|d b] E; try discriminate; [reflexivity|]. injection E as E1 E2. specialize (IH _ E2). cbn [c_string].
  assert (EN : byte_eqb c NUL = byte_eqb d NUL).
  { destruct (byte_eqb c NUL) eqn:A; [apply byte_eqb_eq in A; subst c; rewrite <- (lower_eq E1 eq_refl); reflexivity|].
    destruct (byte_eqb d NUL) eqn:B; [|reflexivity]. apply byte_eqb_eq in B. subst d. rewrite <- (lower_eq (eq_sym E1) eq_refl) in A. discriminate A. }
  rewrite EN. destruct (byte_eqb d NUL); [reflexivity|]. unfold same_case in *. cbn [map]. congruence.
Qed.
Lemma tokens_case a b ts : same_case a b -> tokens a ts -> exists ts', tokens b ts' /\ Forall2 tok_case ts ts'.
Proof.
  intros E T. apply (@lex_from_case (lex_init []) (c_string a)) with (len0 := 0); auto; [left; reflexivity|apply c_string_NUL|apply same_case_refl|apply c_string_case; exact E].
Qed.
Lemma scans_split n (a a2 rest x : bytes) : rest = a ++ x -> skipn n rest = a2 ++ x -> (n <= List.length rest)%nat ->
  (n <= List.length a)%nat /\ a2 = skipn n a /\ (forall y, firstn n (a ++ y) = firstn n a) /\ (forall y, skipn n (a ++ y) = a2 ++ y).
Proof.
  intros -> E L. rewrite app_length in L. assert (K := f_equal (@List.length ascii) E). rewrite skipn_length, !app_length in K.
  assert (LE : (n <= List.length a)%nat) by lia. rewrite skipn_app in E. replace (n - List.length a)%nat with 0%nat in E by lia. cbn [skipn] in E. apply app_inv_tail in E. split; [exact LE|]. split; [symmetry; exact E|].
  split; intro y; [rewrite firstn_app|rewrite skipn_app]; replace (n - List.length a)%nat with 0%nat by lia; [rewrite firstn_O; apply app_nil_r|subst a2; reflexivity].
Qed.
(** Changing the letter case of what follows does not change how a text is read. *)
Lemma scans_case s buf rest l s' buf' rest' : scans s buf rest l s' buf' rest' -> forall a y, rest = a ++ rest' -> same_case rest' y -> scans s buf (a ++ y) l s' buf' y.
Proof.
  induction 1 as [s buf rest ST|s buf rest r n st' l s' buf' rest' ST NE B R N E H IH|s buf rest r n c v st' l s' buf' rest' ST NE B R N E C H IH]; intros a y EA EY.
  - assert (a = []). { apply (f_equal (@List.length ascii)) in EA. rewrite app_length in EA. destruct a; [reflexivity|]. cbn in EA. lia. } subst a. cbn [app]. apply sc_refl. exact ST.
  - destruct (scans_suffix H) as [a2 E3]. destruct (scans_split EA E3 (proj1 B)) as (LE & E4 & FA & SA).
    eapply sc_skip with (r := r) (n := n); [exact ST| | |exact R|exact N|rewrite FA; subst rest; rewrite FA in E; exact E|].
    + destruct a; [|discriminate]. cbn in LE. lia.
    + subst rest. eapply best_lower; [|exact B]. apply same_case_app; [apply same_case_refl|exact EY].
    + rewrite SA. apply IH; auto.
  - destruct (scans_suffix H) as [a2 E3]. destruct (scans_split EA E3 (proj1 B)) as (LE & E4 & FA & SA).
    eapply sc_tok with (r := r) (n := n); [exact ST| | |exact R|exact N|rewrite FA; subst rest; rewrite FA in E; exact E|exact C|].
    + destruct a; [|discriminate]. cbn in LE. lia.
    + subst rest. eapply best_lower; [|exact B]. apply same_case_app; [apply same_case_refl|exact EY].
    + rewrite SA. apply IH; auto.
Qed.

(** ** Which bytes a rule can contain *)
Lemma matches_all f x w : classes (fun n l => forallb (fun z => implb (in_class n l (byte z)) (f (byte z))) (zrange 255 1)) x = true -> matches x w -> forallb f w = true.
Proof.
  intros C M. induction M as [|n l c I|a b u v M1 IH1 M2 IH2|a b u M IH|a b u M IH|a|a u v M1 IH1 M2 IH2]; cbn [classes] in C; try reflexivity.
  - cbn [forallb]. rewrite andb_true_r. assert (NC : c <> NUL) by (intros ->; discriminate I). pose proof (proj1 (forallb_forall _ _) C _ (byte_range NC)) as K. cbn beta in K. rewrite byte_bz, I in K. exact K.
  - apply andb_prop in C as [C1 C2]. rewrite forallb_app, IH1, IH2 by assumption. reflexivity.
  - apply andb_prop in C as [C1 C2]. auto.
  - apply andb_prop in C as [C1 C2]. auto.
  - rewrite forallb_app, IH1, IH2 by assumption. reflexivity.
Qed.
Definition only (f : ascii -> bool) (except : Z -> bool) (p : Z * (where_ * rx)) : bool :=
  if except (fst p) || where_eqb (fst (snd p)) StringOnly then true else classes (fun n l => forallb (fun z => implb (in_class n l (byte z)) (f (byte z))) (zrange 255 1)) (snd (snd p)).
Lemma only_matched f except s r w : forallb (only f except) flex_rules = true -> s <> 3 -> except r = false -> matched (active s) r w -> forallb f w = true.
Proof.
  intros A S3 X (x & I & M). destruct (active_In I) as (wh & I2 & AP). pose proof (proj1 (forallb_forall _ _) A _ I2) as K. unfold only in K. cbn [fst snd] in K. rewrite X in K. cbn [orb] in K.
  destruct wh; cbn [where_eqb applies] in *; try (eapply matches_all; eassumption). lia.
Qed.
(** Rules that can match a line end. *)
Definition lf_rules (r : Z) : bool := (r =? 3) || (r =? 4) || (r =? 169) || (r =? 170) || (r =? 189).
Definition not_LF (c : ascii) : bool := negb (byte_eqb c LF).
Lemma lf_all : forallb (only not_LF lf_rules) flex_rules = true.
Proof. vm_cast_no_check (eq_refl true). Qed.
Definition is_word (c : ascii) : bool := is_alpha c || is_digit c || byte_eqb c "_"%char.
(** Rules that can match a letter. *)
Definition nonword_rules (r : Z) : bool := negb ((5 <=? r) && (r <=? 168) || (r =? 183)).
Lemma word_all : forallb (only is_word nonword_rules) flex_rules = true.
Proof. vm_cast_no_check (eq_refl true). Qed.
