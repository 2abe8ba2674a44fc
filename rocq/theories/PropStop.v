(** Property C61: where reading stops, and that nothing behind counts.
    Vocabulary: [boundary a rest l] (PropLex.v): in the input [a ++ rest] the scanner, having delivered the tokens [l], is at the beginning of [rest], outside
    comments and string literals.  [no_token rest] (Stop.v): no token of the language begins at the beginning of [rest]: it begins with a byte other than
    letters, digits, blanks, the single quote and -+*/(){},.;<>=^%:?[]|, except for != and for a quoted identifier.
    [accepted_with sql l n] (PropGrammar.v): the input is accepted, its statements (without addresses and string lengths) are [l], it has [n] parameters. *)
From Verif Require Import Script PropParse PropGrammar PropLex Stop.
From Verif Require Import ParseProof LexMatch LexRel LexTotal LexScan LexWords LexTok LexCert TableCheck.
From Coq Require Import ZifyBool ZifyNat ZifyN.
Local Open Scope Z_scope.

Lemma boundary_goes a rest l : boundary a rest l -> exists l2 buf p len, goes (lex_init []) 0 (a ++ rest) l2 (mkLex 1 buf p) len rest /\ map core l2 = l.
Proof. intros (buf & S). destruct (scans_goes S pos0 0) as (l2 & p' & len' & G & M). exists l2, buf, p', len'. auto. Qed.
Lemma tokens_from sql : ~ In NUL sql -> lex_all [] sql = lex_from (lex_init []) 0 sql.
Proof. intro N. unfold lex_all, lex_from. now rewrite (c_string_id _ N). Qed.
Lemma no_token_alone c x : no_token (c :: x) -> no_token [c].
Proof.
  intros (c' & x' & E & U & _). injection E as <- _. exists c, []. split; [reflexivity|]. split; [exact U|]. split; [reflexivity|]. intros _ w y _ _ _ K. destruct w; discriminate K.
Qed.

(** What follows the byte at which no token begins has no influence at all, whatever the library is asked and whatever the result object held before. *)
Theorem C61_rest_ignored : forall a c x l buf0 e, ~ In NUL (a ++ c :: x) -> boundary a (c :: x) l -> no_token (c :: x) ->
  parse buf0 (a ++ c :: x) e = parse buf0 (a ++ [c]) e /\ tokenize buf0 (a ++ c :: x) = tokenize buf0 (a ++ [c]).
Proof.
  intros a c x l buf0 e N B NT. assert (T : lex_all [] (a ++ c :: x) = lex_all [] (a ++ [c])).
  { pose proof N as N0. rewrite NUL_app in N0. destruct N0 as [NA NX]. assert (NC : c <> NUL) by (intros ->; apply NX; now left). assert (N1 : ~ In NUL (a ++ [c])) by (rewrite NUL_app; split; [exact NA|intros [K|[]]; congruence]).
    assert (U : unknown c = true) by (destruct NT as (c' & x' & E & U & _); injection E as <- _; exact U).
    destruct (boundary_goes _ _ _ B) as (l2 & buf & p & len & G & _). assert (G1 : goes (lex_init []) 0 (a ++ [c]) l2 (mkLex 1 buf p) len [c]) by (apply (goes_stop NC U (or_intror (ex_intro _ [] eq_refl)) G NA eq_refl eq_refl)).
    rewrite (tokens_from _ N), (tokens_from _ N1), (goes_from G N), (goes_from G1 N1).
    destruct (@stop_from (mkLex 1 buf p) len (c :: x) eq_refl NX NT) as (c1 & x1 & E1 & ->). destruct (@stop_from (mkLex 1 buf p) len [c] eq_refl) as (c2 & x2 & E2 & ->); [intros [K|[]]; congruence|exact (no_token_alone _ _ NT)|].
    injection E1 as <- _. injection E2 as <- _. reflexivity. }
  assert (T' : lex_all buf0 (a ++ c :: x) = lex_all buf0 (a ++ [c])) by now rewrite !(lex_all_buf buf0).
  unfold parse, tokenize. rewrite T'. auto.
Qed.
(** The input is accepted, with the same statements, as if this byte and all that follows were not there. *)
Theorem C61_as_if_absent : forall a c x l, ~ In NUL (a ++ c :: x) -> boundary a (c :: x) l -> no_token (c :: x) ->
  cores (a ++ c :: x) (l ++ [(0, TVNone)]) /\ cores a (l ++ [(0, TVNone)]) /\ forall stmts n, accepted_with (a ++ c :: x) stmts n <-> accepted_with a stmts n.
Proof.
  intros a c x l N B NT. pose proof N as N0. rewrite NUL_app in N0. destruct N0 as [NA NX]. assert (NC : c <> NUL) by (intros ->; apply NX; now left).
  assert (U : unknown c = true) by (destruct NT as (c' & x' & E & U & _); injection E as <- _; exact U). destruct (boundary_goes _ _ _ B) as (l2 & buf & p & len & G & M).
  assert (G1 : goes (lex_init []) 0 (a ++ []) l2 (mkLex 1 buf p) len []) by (apply (goes_stop NC U (or_introl eq_refl) G NA eq_refl eq_refl)). rewrite app_nil_r in G1.
  assert (C1 : cores (a ++ c :: x) (l ++ [(0, TVNone)])).
  { destruct (@stop_from (mkLex 1 buf p) len (c :: x) eq_refl NX NT) as (c1 & x1 & _ & E1). eexists. split; [unfold tokens; rewrite (tokens_from _ N), (goes_from G N), E1; cbn [obind]; reflexivity|]. rewrite map_app, M. reflexivity. }
  assert (C2 : cores a (l ++ [(0, TVNone)])).
  { eexists. split; [unfold tokens; rewrite (tokens_from _ NA), (goes_from G1 NA); rewrite lex_from_eq; [cbn; reflexivity|left; reflexivity|intros []]|]. rewrite map_app, M. reflexivity. }
  split; [exact C1|]. split; [exact C2|]. exact (same_tokens_same_result _ _ _ C1 C2).
Qed.
(** These are the only places: every input is read to its end, or up to a place where no token begins. *)
Theorem C61_only_there : forall sql ts, ~ In NUL sql -> tokens sql ts -> exists l, map core ts = l ++ [(0, TVNone)] /\
  ((exists s buf, scans 1 [] sql l s buf []) \/ exists a rest, sql = a ++ rest /\ boundary a rest l /\ no_token rest).
Proof.
  assert (G : forall s buf text l, lexes s buf text l -> ~ In NUL text -> exists l0 s' buf' rest, scans s buf text l0 s' buf' rest /\ l = l0 ++ [(0, TVNone)] /\ (rest = [] \/ s' = 1 /\ no_token rest)).
  2:{ intros sql ts N T. pose proof (tokens_lexes T) as L. rewrite (c_string_id _ N) in L. destruct (G _ _ _ _ L N) as (l0 & s' & buf' & rest & S & E & H). exists l0. split; [exact E|].
      destruct H as [->|[-> NT]]; [left; eauto|right]. destruct (scans_suffix S) as [a EA]. exists a, rest. split; [exact EA|]. split; [|exact NT]. exists buf'. rewrite <- EA. exact S. }
  intros s buf text l T. induction T as [s buf S|s buf rest r n st' l S NE B R E L IH|s buf rest r n c v st' l S NE B R E C L IH|s buf rest r n c v st' S NE B R E C]; intro N.
  - exists [], s, buf, []. split; [apply sc_refl; exact S|]. split; [reflexivity|]. now left.
  - destruct (IH (skipn_NUL N)) as (l0 & s' & buf' & rest' & SC & EL & ST). exists l0, s', buf', rest'. split; [|auto]. eapply sc_skip with (r := r) (n := n); eauto.
    destruct (Nat.eq_dec n 0) as [->|]; [exfalso|lia]. destruct B as (_ & M & F). destruct rest as [|c rest]; [congruence|]. destruct (@active_any s c S) as [r' M']; [intros ->; apply N; now left|]. destruct (F r' 1%nat) as [K _]; [cbn; lia|exact M'|lia].
  - destruct (IH (skipn_NUL N)) as (l0 & s' & buf' & rest' & SC & EL & ST). exists ((c, v) :: l0), s', buf', rest'. split; [|split; [cbn [app]; f_equal; exact EL|exact ST]]. eapply sc_tok with (r := r) (n := n); eauto.
    destruct (Nat.eq_dec n 0) as [->|]; [exfalso|lia]. destruct B as (_ & M & F). destruct rest as [|c0 rest]; [congruence|]. destruct (@active_any s c0 S) as [r' M']; [intros ->; apply N; now left|]. destruct (F r' 1%nat) as [K _]; [cbn; lia|exact M'|lia].
  - pose proof B as (LB & M & F). pose proof (@run_rule_code s r _ (mkLex s buf pos0) R M) as RC. rewrite E in RC. destruct RC as [RC|(-> & -> & ->)]; [lia|].
    exists [], s, buf, rest. split; [apply sc_refl; exact S|]. split; [reflexivity|]. right. destruct (stop_unknown _ _ _ S N B) as (c0 & x & -> & U).
    pose proof M as M0. apply matched_rule in M0 as [M0 AP]. rewrite rx_188 in M0. assert (n = 1)%nat. { destruct n as [|n]; [inversion M0|]. cbn [firstn] in M0. inversion M0 as [|n0 l0 c1 IC EQ| | | | |]; subst. cbn in LB. destruct n as [|n]; [reflexivity|]. destruct x; [cbn in LB; lia|discriminate]. } subst n.
    assert (S15 : s = 1 \/ s = 5) by (destruct AP as [AP|AP]; [lia|]; assert (W : rule_where 188 = Normal) by (vm_compute; reflexivity); rewrite W in AP; cbn [applies] in AP; lia).
    assert (S1 : s = 1).
    { destruct S15 as [|S5]; [assumption|exfalso]. subst s. destruct (F 2 1%nat) as [_ K]; [cbn; lia| |specialize (K eq_refl); lia].
      apply rule_matches_active. exists CommentOnly, (Star (Cls true [(10, 10)])). split; [right; left; reflexivity|]. split; [|reflexivity]. cbn [firstn]. apply star_cls_matches. cbn [forallb]. rewrite andb_true_r.
      unfold in_class. cbn [existsb fst snd]. destruct (Z.eq_dec (bz c0) 10) as [E10|E10]; [|assert (bz c0 <> 0) by (intro Z; apply N; left; rewrite <- (byte_bz c0), Z; reflexivity); lia]. exfalso. assert (c0 = LF) by (rewrite <- (byte_bz c0); replace (bz c0) with 10 by lia; reflexivity). subst c0. discriminate U. }
    split; [exact S1|]. subst s. exists c0, x. split; [reflexivity|]. split; [exact U|]. split.
    + intros ->. destruct x as [|d x]; [reflexivity|]. cbn [starts]. destruct (byte_eqb "="%char d) eqn:ED; [exfalso|reflexivity]. apply byte_eqb_eq in ED. subst d.
      destruct (F 172 2%nat) as [K _]; [cbn; lia| |lia]. cbn [firstn]. change ["!"%char; "="%char] with (["!"%char] ++ ["="%char]). rewrite <- after_ok. rewrite after_1. exists (Cls false [(61, 61)]). split; [|constructor; reflexivity].
      assert (I : In (172, Cls false [(61, 61)]) (live (steps "!"%char (active 1)))) by (rewrite live_bang; now left). unfold live in I. apply filter_In in I. apply I.
    + intros -> w y NW D1 D2 ->. destruct (F 182 (2 + List.length w)%nat) as [K _]; [cbn [List.length]; rewrite app_length; cbn [List.length]; lia| |lia].
      replace (firstn (2 + List.length w) (DQUOTE :: w ++ DQUOTE :: y)) with ([DQUOTE] ++ (w ++ [DQUOTE])).
      2:{ change ([DQUOTE] ++ w ++ [DQUOTE] = DQUOTE :: firstn (Datatypes.S (List.length w)) (w ++ DQUOTE :: y)). cbn [app]. f_equal. rewrite firstn_app. rewrite firstn_all2 by lia. replace (Datatypes.S (List.length w) - List.length w)%nat with 1%nat by lia. reflexivity. }
      rewrite <- after_ok, after_1. eexists. split.
      * assert (I : In (182, Cat (Cat (Cls true [(34, 34); (10, 10)]) (Star (Cls true [(34, 34); (10, 10)]))) (Cls false [(34, 34)])) (live (steps DQUOTE (active 1)))) by (rewrite live_quote; now left). unfold live in I. apply filter_In in I. apply I.
      * constructor; [|constructor; reflexivity]. apply plus_cls_matches; [exact NW|]. apply forallb_forall. intros b I. unfold in_class. cbn [existsb fst snd].
        assert (bz b <> 34). { intro Z. apply D1. replace DQUOTE with b; [exact I|]. rewrite <- (byte_bz b), Z. reflexivity. }
        assert (bz b <> 10). { intro Z. apply D2. replace LF with b; [exact I|]. rewrite <- (byte_bz b), Z. reflexivity. }
        assert (bz b <> 0). { intro Z. apply N. right. apply in_or_app. left. replace NUL with b; [exact I|]. rewrite <- (byte_bz b), Z. reflexivity. } lia.
Qed.

(** Nothing behind the number sign is looked at. *)
Example C61_example : boundary (la "SELECT") (la "# FROM (" ) [(TOK_SELECT, TVNone)] /\ no_token (la "# FROM (") /\ no_token (la "!a = b") /\ no_token (DQUOTE :: la "open").
Proof.
  split; [apply select_boundary; reflexivity|]. split; [|split].
  - eexists _, _. split; [reflexivity|]. split; [reflexivity|]. split; discriminate.
  - eexists _, _. split; [reflexivity|]. split; [reflexivity|]. split; [reflexivity|discriminate].
  - eexists _, _. split; [reflexivity|]. split; [reflexivity|]. split; [discriminate|]. intros _ w y _ _ _ E. assert (I : In DQUOTE (la "open")) by (rewrite E; apply in_or_app; right; now left). cbn in I. intuition discriminate.
Qed.
Example C61_example_accepted : exists e, parse [] (la "SELECT a FROM t; # nothing of this") fresh_env = PRet 0 e /\ e_valid e = true /\ List.length (e_stmts e) = 1%nat.
Proof. eexists. split; [vm_compute; reflexivity|]. split; reflexivity. Qed.
