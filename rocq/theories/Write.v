(** Specification: a text for every sequence of tokens, with a blank after each token and all identifiers quoted.  The other spellings are
    given by [spells] (Spell.v).  No code of /repo. *)
From Verif Require Export Spell.
From Coq Require Import ZifyBool ZifyNat ZifyN.
Local Open Scope Z_scope.

(** Keywords, operators and keyword pairs with their codes. *)
Definition fixed_texts : list (Z * bytes) :=
  map (fun p => (snd p, fst p)) keywords ++ map (fun p => (snd (snd p), fst p)) op_list ++ map (fun p => (snd (snd p), fst p)) pair_list.
(** Decimal digits; [n] bounds their number. *)
Fixpoint dec (n : nat) (z : Z) : bytes := match n with O => [] | S n => (if z <? 10 then [] else dec n (z / 10)) ++ [byte (48 + z mod 10)] end.
Definition int_text (z : Z) : bytes := if z =? -9223372036854775808 then la "-9223372036854775808" else dec 19 z.
Definition token_str (t : Z * tokval) : bytes :=
  match snd t with
  | TVNone => match find (fun p => fst p =? fst t) fixed_texts with Some p => snd p | None => [] end
  | TVStr s => if fst t =? TOK_STRING then QUOTE :: escape s ++ [QUOTE] else DQUOTE :: s ++ [DQUOTE]
  | TVInt z => int_text z
  | TVFlt f => f
  end.
Definition write (l : list (Z * tokval)) : bytes := flat_map (fun t => token_str t ++ [SP]) l.
(** Tokens that can be written: NUL-free strings, identifiers without quotes and line feeds, 64-bit integers which are not negative (and the
    least one), digits with one period. *)
Definition float_text (f : bytes) : bool := forallb digit_or_dot f && (List.length (filter (fun c => byte_eqb c "."%char) f) =? 1)%nat && (2 <=? List.length f)%nat.
Definition printable (t : Z * tokval) : bool :=
  match snd t with
  | TVNone => (0 <? fst t) && existsb (fun p => fst p =? fst t) fixed_texts
  | TVStr s => (fst t =? TOK_STRING) && forallb (fun c => negb (byte_eqb c NUL)) s || (fst t =? TOK_IDENTIFIER) && nonempty s && forallb in_quotes s
  | TVInt z => (fst t =? TOK_INTVAL) && ((0 <=? z) && (z <=? 9223372036854775807) || (z =? -9223372036854775808))
  | TVFlt f => (fst t =? TOK_FLOATVAL) && float_text f
  end.

Lemma dec_ok n : forall z, 0 <= z < 10 ^ Z.of_nat n -> (0 < n)%nat -> digits (dec n z) = true /\ decimal (dec n z) = z /\ (starts (fun c => byte_eqb c "0"%char) (dec n z) = false \/ dec n z = la "0").
Proof.
  assert (D1 : forall z, 0 <= z < 10 -> is_digit (byte (48 + z)) = true /\ bz (byte (48 + z)) = 48 + z /\ (z = 0 \/ byte_eqb (byte (48 + z)) "0"%char = false)).
  { intros z H. assert (A : forallb (fun z => is_digit (byte (48 + z)) && (bz (byte (48 + z)) =? 48 + z) && ((z =? 0) || negb (byte_eqb (byte (48 + z)) "0"%char))) (TableCheck.zrange 10 0) = true) by (vm_compute; reflexivity).
    rewrite forallb_forall in A. assert (I : In z (TableCheck.zrange 10 0)) by (apply TableCheck.zrange_In; lia). specialize (A _ I). apply andb_prop in A as [A A3]. apply andb_prop in A as [A1 A2].
    split; [exact A1|]. split; [lia|]. apply orb_prop in A3 as [A3|A3]; [left; lia|right; now apply negb_true_iff]. }
  induction n as [|n IH]; intros z H N; [lia|]. cbn [dec]. pose proof (Z.mod_pos_bound z 10 ltac:(lia)) as M. destruct (D1 (z mod 10) M) as (A1 & A2 & A3).
  destruct (z <? 10) eqn:L.
  - rewrite (Z.mod_small z 10) in * by lia. cbn [app]. split; [cbn [digits forallb]; now rewrite A1|]. split; [unfold decimal; cbn [fold_left]; lia|]. cbn [starts]. destruct A3 as [->|A3]; [right; reflexivity|now left].
  - assert (H' : 0 <= z / 10 < 10 ^ Z.of_nat n). { split; [apply Z.div_pos; lia|]. apply Z.div_lt_upper_bound; [lia|]. replace (Z.of_nat (S n)) with (Z.succ (Z.of_nat n)) in H by lia. rewrite Z.pow_succ_r in H by lia. lia. }
    assert (N' : (0 < n)%nat). { destruct n; [|lia]. cbn in H'. assert (1 <= z / 10) by (apply Z.div_le_lower_bound; lia). lia. }
    destruct (IH _ H' N') as (B1 & B2 & B3). destruct (dec n (z / 10)) as [|c w] eqn:E; [discriminate B1|]. split; [|split].
    + cbn [digits app]. cbn [digits] in B1. rewrite app_comm_cons, forallb_app, B1. cbn [forallb]. now rewrite A1.
    + unfold decimal in *. rewrite fold_left_app, B2. cbn [fold_left]. rewrite A2. pose proof (Z.div_mod z 10). lia.
    + left. destruct B3 as [B3|B3]; [exact B3|]. rewrite B3 in B2. assert (1 <= z / 10) by (apply Z.div_le_lower_bound; lia). change (decimal (la "0")) with 0 in B2. lia.
Qed.
Lemma int_width : 10 ^ Z.of_nat 19 = 10000000000000000000. Proof. vm_compute. reflexivity. Qed.
Lemma float_split f : float_text f = true -> exists a b, f = a ++ "."%char :: b /\ forallb is_digit a = true /\ forallb is_digit b = true /\ (a <> [] \/ b <> []).
Proof.
  unfold float_text. intros H. apply andb_prop in H as [H L]. apply andb_prop in H as [F C].
  assert (G : forall f, forallb digit_or_dot f = true -> (List.length (filter (fun c => byte_eqb c "."%char) f) = 1)%nat -> exists a b, f = a ++ "."%char :: b /\ forallb is_digit a = true /\ forallb is_digit b = true).
  { assert (G0 : forall f, forallb digit_or_dot f = true -> (List.length (filter (fun c => byte_eqb c "."%char) f) = 0)%nat -> forallb is_digit f = true).
    { clear. induction f as [|c f IH]; intros F L; [reflexivity|]. cbn [forallb filter] in *. apply andb_prop in F as [F1 F2]. unfold digit_or_dot in F1. destruct (byte_eqb c "."%char); [discriminate L|]. rewrite orb_false_r in F1. rewrite F1. now apply IH. }
    clear - G0. induction f as [|c f IH]; intros F L; [discriminate L|]. cbn [forallb filter] in *. apply andb_prop in F as [F1 F2]. unfold digit_or_dot in F1. destruct (byte_eqb c "."%char) eqn:E.
    - cbn [List.length] in L. injection L as L. apply byte_eqb_eq in E. subst c. exists [], f. auto.
    - rewrite orb_false_r in F1. destruct (IH F2 L) as (a & b & -> & A & B). exists (c :: a), b. cbn [forallb]. rewrite F1. auto. }
  apply Nat.eqb_eq in C. destruct (G f F C) as (a & b & -> & A & B). exists a, b. repeat split; auto. destruct a; [|left; discriminate]. right. destruct b; [cbn in L; lia|discriminate].
Qed.
Lemma printable_text t rest : printable t = true -> token_text t (token_str t) (SP :: rest).
Proof.
  destruct t as [c v]. unfold printable, token_str. cbn [fst snd]. destruct v as [|s|z|f]; intro H.
  - apply andb_prop in H as [C H]. destruct (find (fun p => fst p =? c) fixed_texts) as [[c' w]|] eqn:E.
    + apply find_some in E as [I E]. cbn [fst snd] in *. assert (c' = c) as -> by lia. unfold fixed_texts in I. apply in_app_iff in I as [I|I]; [|apply in_app_iff in I as [I|I]].
      * apply in_map_iff in I as ([k c1] & E1 & I). cbn [fst snd] in E1. injection E1 as -> ->. eapply tt_keyword; [exact I|reflexivity|reflexivity].
      * apply in_map_iff in I as ([k [r c1]] & E1 & I). cbn [fst snd] in E1. injection E1 as -> ->. eapply tt_op; [exact I|]. unfold glues. repeat match goal with |- context [if ?b then _ else _] => destruct b end; reflexivity.
      * apply in_map_iff in I as ([k [r c1]] & E1 & I). cbn [fst snd] in E1. injection E1 as -> ->. eapply tt_pair; exact I.
    + exfalso. apply existsb_exists in H as (p & I & E2). pose proof (find_none _ _ E _ I) as N. cbv beta in N. congruence.
  - apply orb_prop in H as [H|H].
    + apply andb_prop in H as [C H]. rewrite C. assert (c = TOK_STRING) as -> by lia. constructor; [|reflexivity]. eapply chars_NUL; [|exact H]. reflexivity.
    + apply andb_prop in H as [H Q]. apply andb_prop in H as [C NE]. assert (c = TOK_IDENTIFIER) as -> by lia. change (TOK_IDENTIFIER =? TOK_STRING) with false. constructor; [|exact Q]. destruct s; discriminate.
  - apply andb_prop in H as [C H]. assert (c = TOK_INTVAL) as -> by lia. unfold int_text. destruct (z =? -9223372036854775808) eqn:M.
    + assert (z = -9223372036854775808) as -> by lia. constructor.
    + pose proof int_width as IW. pose proof (dec_ok 19 z) as G. generalize dependent (dec 19 z). intros w G. destruct G as (A & B & D); [lia|lia|]. rewrite <- B at 1. constructor; [exact A|exact D|lia|reflexivity].
  - apply andb_prop in H as [C H]. assert (c = TOK_FLOATVAL) as -> by lia. destruct (float_split f H) as (a & b & -> & A & B & NE). constructor; auto.
Qed.
Lemma token_text_head t w rest : token_text t w rest -> w <> [] /\ starts is_blank (w ++ rest) = false.
Proof.
  assert (AL : forall c, is_word c = true -> is_blank c = false).
  { intros c W. destruct (is_blank c) eqn:B; [|reflexivity]. apply is_blank_cases in B as [->|[->| ->]]; discriminate W. }
  assert (DG : forall c, is_digit c = true -> is_blank c = false). { intros c D. apply AL. unfold is_word. rewrite D. now rewrite orb_true_r. }
  destruct 1 as [k w c rest I0 SC SW|w r c rest I G|w r c rest I|w rest W K SW J|w rest NE Q|w rest N SQ|w rest D Z M SD|a b rest A B NE SD|rest].
  - destruct (keyword_rule _ _ I0) as (r & I & TR). pose proof (proj1 (forallb_forall _ _) keywords_ok _ I) as F. unfold keyword_ok in F. cbn [fst snd] in F. rewrite TR in F. destruct (first_nullable _); [|discriminate F].
    repeat (apply andb_prop in F as [F ?F]). destruct k as [|d k]; [discriminate|]. cbn [word] in F2. apply andb_prop in F2 as [F2 _]. unfold same_case in SC. destruct w as [|x w]; [discriminate SC|]. split; [discriminate|]. cbn [starts app].
    cbn [map] in SC. injection SC as E _. destruct (is_blank x) eqn:B; [|reflexivity]. exfalso. apply is_blank_cases in B.
    assert (L : lower d = x) by (destruct B as [->|[->| ->]]; exact E). assert (AA : forallb (fun z => implb (is_alpha (byte z)) (negb (is_blank (lower (byte z))))) (TableCheck.zrange 256 0) = true) by (vm_compute; reflexivity).
    rewrite forallb_forall in AA. assert (IZ : In (bz d) (TableCheck.zrange 256 0)) by (apply TableCheck.zrange_In; unfold bz; pose proof (N_ascii_bounded d); lia). specialize (AA _ IZ). rewrite byte_bz, F2, L in AA. cbn in AA. destruct B as [->|[->| ->]]; discriminate AA.
  - assert (A : forallb (fun p => nonempty (fst p) && negb (starts is_blank (fst p))) op_list = true) by (vm_compute; reflexivity). rewrite forallb_forall in A. specialize (A _ I). cbn [fst] in A. destruct w; [discriminate A|]. split; [discriminate|]. cbn in *. now apply negb_true_iff.
  - destruct I as [E|[E|[]]]; injection E as <- _ _; split; try discriminate; reflexivity.
  - apply word_chars in W as W'. destruct w as [|c w]; [discriminate W|]. split; [discriminate|]. cbn [starts app]. cbn [forallb] in W'. apply andb_prop in W' as [W' _]. now apply AL.
  - split; [discriminate|reflexivity].
  - split; [discriminate|reflexivity].
  - destruct w as [|c w]; [discriminate D|]. split; [discriminate|]. cbn [digits forallb] in D. apply andb_prop in D as [D _]. now apply DG.
  - destruct a as [|c a]; [split; [discriminate|reflexivity]|]. split; [discriminate|]. cbn [forallb] in A. apply andb_prop in A as [A _]. now apply DG.
  - split; [discriminate|reflexivity].
Qed.
Theorem write_spells l : forallb printable l = true -> spells l (write l).
Proof.
  induction l as [|t l IH]; intros P; [constructor|]. cbn [forallb] in P. apply andb_prop in P as [P1 P2]. unfold write. cbn [flat_map]. fold (write l). rewrite <- app_assoc. cbn [app].
  apply ss_tok; [now apply printable_text|]. change (SP :: write l) with ([SP] ++ write l). apply ss_blank; [split; [discriminate|reflexivity]| |now apply IH].
  destruct l as [|t' l']; [reflexivity|]. unfold write. cbn [flat_map]. fold (write l'). rewrite <- app_assoc. cbn [forallb] in P2. apply andb_prop in P2 as [P2 _]. exact (proj2 (token_text_head _ _ _ (printable_text t' (write l') P2))).
Qed.
