(** Specification: the texts that spell a sequence of tokens, and the proof that the scanner reads them back.

    [token_text t w rest]: the text [w], followed by [rest], is a spelling of the token [t] (code and value).
    [spells l text]: [text] spells the tokens [l], with or without blanks where the spelling allows both.  No code of /repo. *)
From Verif Require Export Trees PropLex.
From Coq Require Import ZifyBool ZifyNat ZifyN.
From Verif Require Export LexScan LexWords LexTok.
Local Open Scope Z_scope.
Set Implicit Arguments.
Unset Strict Implicit.

(** [c] directly behind the operator [w] would continue it (== for =, a digit for a period, - for a minus, ...). *)
Definition glues (w : bytes) (c : ascii) : bool :=
  if bytes_eqb w (la "-") then byte_eqb c "-" || byte_eqb c "9"
  else if bytes_eqb w (la ".") then is_digit c
  else if bytes_eqb w (la "<") then byte_eqb c "=" || byte_eqb c ">"
  else if bytes_eqb w (la ">") then byte_eqb c "="
  else if bytes_eqb w (la "=") then byte_eqb c "="
  else if bytes_eqb w (la "|") then byte_eqb c "|"
  else false.
Definition pair_list : list (bytes * (Z * Z)) := [(la "CURRENT ROW", (169, TOK_CURRENT_ROW)); (la "CHARACTER VARYING", (170, TOK_CHARACTER_VARYING))].
Inductive token_text : Z * tokval -> bytes -> bytes -> Prop :=
| tt_keyword : forall k w c rest, In (k, c) keywords -> same_case k w -> starts is_word rest = false -> token_text (c, TVNone) w rest
| tt_op : forall w r c rest, In (w, (r, c)) op_list -> starts (glues w) rest = false -> token_text (c, TVNone) w rest
| tt_pair : forall w r c rest, In (w, (r, c)) pair_list -> token_text (c, TVNone) w rest
| tt_word : forall w rest, word w = true -> ~ is_keyword w -> starts is_word rest = false -> ~ joined w rest -> token_text (TOK_IDENTIFIER, TVStr w) w rest
| tt_quoted : forall w rest, w <> [] -> forallb in_quotes w = true -> token_text (TOK_IDENTIFIER, TVStr w) (DQUOTE :: w ++ [DQUOTE]) rest
| tt_string : forall w rest, ~ In NUL w -> starts (fun c => byte_eqb c QUOTE) rest = false -> token_text (TOK_STRING, TVStr w) (QUOTE :: escape w ++ [QUOTE]) rest
| tt_int : forall w rest, digits w = true -> (starts (fun c => byte_eqb c "0"%char) w = false \/ w = la "0") -> decimal w <= 9223372036854775807 -> starts digit_or_dot rest = false ->
    token_text (TOK_INTVAL, TVInt (decimal w)) w rest
| tt_float : forall a b rest, forallb is_digit a = true -> forallb is_digit b = true -> (a <> [] \/ b <> []) -> starts is_digit rest = false ->
    token_text (TOK_FLOATVAL, TVFlt (a ++ "."%char :: b)) (a ++ "."%char :: b) rest
| tt_min : forall rest, token_text (TOK_INTVAL, TVInt (-9223372036854775808)) (la "-9223372036854775808") rest.
Inductive spells : list (Z * tokval) -> bytes -> Prop :=
| ss_end : spells [] []
| ss_tok : forall t w rest l, token_text t w rest -> spells l rest -> spells (t :: l) (w ++ rest)
| ss_blank : forall bl rest l, blank bl -> starts is_blank rest = false -> spells l rest -> spells l (bl ++ rest).

(** ** The scanner reads them back *)
Definition nonempty (w : bytes) : bool := match w with [] => false | _ => true end.
Definition op_ok2 (p : bytes * (Z * Z)) : bool :=
  opt_eqb (first_nullable (after (active 1) (fst p))) (Some (fst (snd p))) && (1 <=? fst (snd p)) && (fst (snd p) <=? 189) && (0 <? snd (snd p)) &&
  forallb (fun z => glues (fst p) (byte z) || match steps (byte z) (after (active 1) (fst p)) with [] => true | _ => false end) (zrange 255 1) &&
  nonempty (fst p) && forallb (fun c => negb (byte_eqb c NUL)) (fst p) &&
  match run_rule (fst (snd p)) (fst p) (mkLex 1 [] pos0) with Ret c TVNone st => (c =? snd (snd p)) && (lx_start st =? 1) | _ => false end.
Lemma ops_ok2 : forallb op_ok2 op_list = true. Proof. vm_cast_no_check (eq_refl true). Qed.
Lemma pairs_ok2 : forallb op_ok2 pair_list = true. Proof. vm_cast_no_check (eq_refl true). Qed.
Lemma after_snoc l w c : after l (w ++ [c]) = steps c (after l w).
Proof. rewrite after_app, after_1. reflexivity. Qed.
Lemma scan_op2 buf w r c rest : op_ok2 (w, (r, c)) = true -> starts (glues w) rest = false -> ~ In NUL rest -> scans 1 buf (w ++ rest) [(c, TVNone)] 1 buf rest.
Proof.
  intros K SR NR. unfold op_ok2 in K. cbn [fst snd] in K. assert (ST : is_start 1) by (left; reflexivity).
  do 7 (apply andb_prop in K as [K ?K]). destruct (run_rule r w (mkLex 1 [] pos0)) as [|c1 [] s1] eqn:RR; try discriminate. apply andb_prop in K0 as [K0 K7]. assert (c1 = c) by lia. subst c1.
  assert (FN : first_nullable (after (active 1) w) = Some r) by (destruct (first_nullable (after (active 1) w)); cbn in K; [f_equal; lia|discriminate]).
  assert (R187 : r <> 187). { intros ->. pose proof (first_matched FN) as M. apply matched_rule in M as [_ [M|M]]; [lia|]. vm_compute in M. discriminate M. }
  destruct (@run_rule_buf r w 1 [] pos0 buf pos0 _ _ _ RR R187) as (s2 & E2 & ES & EB).
  assert (S1 : lx_start s2 = 1) by lia. rewrite <- S1 at 2. rewrite <- EB at 2. apply scans_one with (r := r); [exact ST|destruct w; discriminate| |lia|exact E2|lia].
  apply best_of_first; [exact ST|exact FN|]. intros d v u r' -> M. assert (ND : d <> NUL) by (intros ->; apply NR; now left).
  pose proof (@all_bytes (fun d => glues w d || match steps d (after (active 1) w) with [] => true | _ => false end) K3 d ND) as A. cbn [starts] in SR. cbv beta in A. rewrite SR in A. cbn [orb] in A.
  change (d :: v) with ([d] ++ v) in M. rewrite app_assoc in M. rewrite <- after_ok in M. rewrite after_snoc in M. destruct (steps d (after (active 1) w)); [exact (matched_nil M)|discriminate A].
Qed.
Lemma op_NUL w r c : op_ok2 (w, (r, c)) = true -> ~ In NUL w.
Proof.
  intro K. unfold op_ok2 in K. cbn [fst snd] in K. do 7 (apply andb_prop in K as [K ?K]). intro I. pose proof (proj1 (forallb_forall _ _) K1 _ I) as A. discriminate A.
Qed.
Lemma chars_NUL f w : (f NUL = false) -> forallb f w = true -> ~ In NUL w.
Proof. intros F W I. pose proof (proj1 (forallb_forall _ _) W _ I) as A. congruence. Qed.
Lemma lower_NUL c : lower c = NUL -> c = NUL.
Proof. intro E. assert (A : forallb (fun z => implb (byte_eqb (lower (byte z)) NUL) (byte_eqb (byte z) NUL)) (zrange 256 0) = true) by (vm_compute; reflexivity).
  rewrite forallb_forall in A. assert (I : In (bz c) (zrange 256 0)) by (apply TableCheck.zrange_In; unfold bz; pose proof (N_ascii_bounded c); lia). specialize (A _ I). rewrite byte_bz, E in A. cbn in A. now apply byte_eqb_eq.
Qed.
Lemma keywords_NUL : forallb (fun p => forallb (fun c => negb (byte_eqb c NUL)) (fst p)) keywords = true. Proof. vm_compute. reflexivity. Qed.
Lemma escape_NUL w : ~ In NUL w -> ~ In NUL (escape w).
Proof.
  induction w as [|c w IH]; intros N I; [exact I|]. cbn [escape] in I. destruct (byte_eqb c QUOTE) eqn:E.
  - apply byte_eqb_eq in E. subst c. destruct I as [I|[I|I]]; try discriminate I. apply IH; [|exact I]. intro. apply N. now right.
  - destruct I as [I|I]; [apply N; now left|]. apply IH; [|exact I]. intro. apply N. now right.
Qed.
Lemma token_text_NUL t w rest : token_text t w rest -> ~ In NUL w.
Proof.
  destruct 1 as [k w c rest I SC SW|w r c rest I G|w r c rest I|w rest W K SW J|w rest NE Q|w rest N SQ|w rest D Z M SD|a b rest A B NE SD|rest].
  - pose proof (proj1 (forallb_forall _ _) keywords_NUL _ I) as F. cbn [fst] in F. eapply NUL_case; [exact SC|]. eapply chars_NUL; [|exact F]. reflexivity.
  - eapply op_NUL. exact (proj1 (forallb_forall _ _) ops_ok2 _ I).
  - eapply op_NUL. exact (proj1 (forallb_forall _ _) pairs_ok2 _ I).
  - apply word_chars in W. eapply chars_NUL; [|exact W]. reflexivity.
  - intro I. destruct I as [I|I]; [discriminate I|]. apply in_app_iff in I as [I|[I|[]]]; [|discriminate I]. eapply chars_NUL; [|exact Q|exact I]. reflexivity.
  - intro I. destruct I as [I|I]; [discriminate I|]. apply in_app_iff in I as [I|[I|[]]]; [|discriminate I]. exact (escape_NUL N I).
  - destruct w; [discriminate D|]. eapply chars_NUL; [|exact D]. reflexivity.
  - intro I. apply in_app_iff in I as [I|[I|I]]; [|discriminate I|]; [exact (@chars_NUL is_digit a eq_refl A I)|exact (@chars_NUL is_digit b eq_refl B I)].
  - intro I. repeat (destruct I as [I|I]; [discriminate I|]). exact I.
Qed.
Lemma spells_NUL l text : spells l text -> ~ In NUL text.
Proof.
  induction 1 as [|t w rest l TT S IH|bl rest l [_ B] SB S IH]; [intros []| |]; rewrite NUL_app; split; auto.
  - eapply token_text_NUL; eassumption.
  - eapply chars_NUL; [|exact B]. reflexivity.
Qed.
Lemma token_text_scans t w rest buf : token_text t w rest -> ~ In NUL rest -> exists buf', scans 1 buf (w ++ rest) [t] 1 buf' rest.
Proof.
  intros TT NR. destruct TT as [k w c rest I SC SW|w r c rest I G|w r c rest I|w rest W K SW J|w rest NE Q|w rest N SQ|w rest D Z M SD|a b rest A B NE SD|rest].
  - exists buf. match goal with H : In _ keywords |- _ => apply keyword_rule in H as (r & KI & KT) end. eapply scan_keyword; eassumption.
  - exists buf. eapply scan_op2; [exact (proj1 (forallb_forall _ _) ops_ok2 _ I)|exact G|exact NR].
  - exists buf. eapply scan_op2; [exact (proj1 (forallb_forall _ _) pairs_ok2 _ I)| |exact NR]. destruct I as [E|[E|[]]]; injection E as <- _ _; destruct rest; reflexivity.
  - exists buf. apply scan_identifier; assumption.
  - exists buf. cbn [app]. rewrite <- app_assoc. cbn [app]. apply scan_quoted; assumption.
  - exists w. cbn [app]. rewrite <- app_assoc. cbn [app]. apply scan_string; assumption.
  - exists buf. apply scan_integer; [exact D|exact SD|]. rewrite (strtoll0_decimal D Z). unfold LLONG_MAX. replace (decimal w <=? 9223372036854775807) with true by lia. reflexivity.
  - exists buf. apply scan_float; assumption.
  - exists buf. apply scan_min.
Qed.
Theorem spells_lexes l text : spells l text -> forall buf, lexes 1 buf text (l ++ [(0, TVNone)]).
Proof.
  induction 1 as [|t w rest l TT S IH|bl rest l B SB S IH]; intro buf.
  - cbn [app]. constructor. exact ST1.
  - destruct (token_text_scans buf TT (spells_NUL S)) as (buf' & SC). change ((t :: l) ++ [(0, TVNone)]) with ([t] ++ l ++ [(0, TVNone)]). eapply scans_lexes; [exact SC|apply IH].
  - change (l ++ [(0, TVNone)]) with ([] ++ l ++ [(0, TVNone)]). eapply scans_lexes; [apply scan_blank; assumption|apply IH].
Qed.
Theorem spells_tokens l text : spells l text -> cores text (l ++ [(0, TVNone)]).
Proof. intro S. apply lexes_cores; [eapply spells_NUL; exact S|]. apply spells_lexes. exact S. Qed.
