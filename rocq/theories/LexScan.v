(** Scanning up to a token boundary, and what the residual rules at a boundary can still match.  No code of /repo. *)
From Verif Require Export LexRel.
From Verif Require Import LexCert TableCheck.
From Coq Require Import ZifyBool ZifyNat ZifyN.
Local Open Scope Z_scope.
Set Implicit Arguments.
Unset Strict Implicit.

(** [scans s buf rest l s' buf' rest']: from start condition [s] at [rest] the scanner reads the tokens [l] (all with positive codes)
    and is then in start condition [s'] at [rest']. *)
Inductive scans : Z -> bytes -> bytes -> list (Z * tokval) -> Z -> bytes -> bytes -> Prop :=
| sc_refl : forall s buf rest, is_start s -> scans s buf rest [] s buf rest
| sc_skip : forall s buf rest r n st' l s' buf' rest', is_start s -> rest <> [] -> best (active s) rest r n -> 1 <= r <= 189 -> (1 <= n)%nat ->
    run_rule r (firstn n rest) (mkLex s buf pos0) = Skip st' -> scans (lx_start st') (lx_buf st') (skipn n rest) l s' buf' rest' -> scans s buf rest l s' buf' rest'
| sc_tok : forall s buf rest r n c v st' l s' buf' rest', is_start s -> rest <> [] -> best (active s) rest r n -> 1 <= r <= 189 -> (1 <= n)%nat ->
    run_rule r (firstn n rest) (mkLex s buf pos0) = Ret c v st' -> 0 < c -> scans (lx_start st') (lx_buf st') (skipn n rest) l s' buf' rest' ->
    scans s buf rest ((c, v) :: l) s' buf' rest'.
Lemma scans_start s buf rest l s' buf' rest' : scans s buf rest l s' buf' rest' -> is_start s /\ is_start s'.
Proof. induction 1; tauto. Qed.
Lemma scans_trans s buf rest l s' buf' rest' l2 s2 buf2 rest2 : scans s buf rest l s' buf' rest' -> scans s' buf' rest' l2 s2 buf2 rest2 -> scans s buf rest (l ++ l2) s2 buf2 rest2.
Proof. induction 1; intro K2; cbn [app]; [exact K2|eapply sc_skip; eauto|eapply sc_tok; eauto]. Qed.
Lemma scans_lexes s buf rest l s' buf' rest' l2 : scans s buf rest l s' buf' rest' -> lexes s' buf' rest' l2 -> lexes s buf rest (l ++ l2).
Proof. induction 1; intro K2; cbn [app]; [exact K2|eapply lx_skip; eauto|eapply lx_tok; eauto]. Qed.
Lemma scans_suffix s buf rest l s' buf' rest' : scans s buf rest l s' buf' rest' -> exists a, rest = a ++ rest'.
Proof.
  induction 1 as [s buf rest ST|s buf rest r n st' l s' buf' rest' ST NE B R N E H [a IH]|s buf rest r n c v st' l s' buf' rest' ST NE B R N E C H [a IH]]; [exists []; reflexivity| |];
    exists (firstn n rest ++ a); rewrite <- app_assoc, <- IH; symmetry; apply firstn_skipn.
Qed.

(** ** The residual rules after any text form a finite set *)
Lemma after_resid w : forall s l, resid s = Some l -> ~ In NUL w -> after l w = [] \/ exists s', In (s', after l w) resid_list.
Proof.
  induction w as [|c w IH]; intros s l R N; [right; exists s; apply resid_In; exact R|]. cbn [after].
  assert (C : c <> NUL) by (intros ->; apply N; now left). assert (N' : ~ In NUL w) by (intro I; apply N; now right).
  destruct (state_facts R) as (F & _ & _). destruct (F c C) as (e & t & _ & _ & [[_ E]|(_ & _ & R')]); [rewrite E, after_nil; now left|]. eapply IH; eassumption.
Qed.
Lemma after_active s w : is_start s -> ~ In NUL w -> after (active s) w = [] \/ exists s', In (s', after (active s) w) resid_list.
Proof. intros ST. apply after_resid with (s := s). apply active_resid. exact ST. Qed.
(** A property checked for all residual lists holds after every text. *)
Lemma after_check (P : rules -> bool) : P [] = true -> forallb (fun p => P (snd p)) resid_list = true -> forall s w, is_start s -> ~ In NUL w -> P (after (active s) w) = true.
Proof.
  intros P0 C s w ST N. destruct (after_active ST N) as [->|[s' I]]; [exact P0|]. exact (proj1 (forallb_forall _ resid_list) C _ I).
Qed.

(** ** Blanks *)
Definition is_blank (c : ascii) : bool := byte_eqb c SP || byte_eqb c TAB || byte_eqb c LF.
Definition blank (w : bytes) : Prop := w <> [] /\ forallb is_blank w = true.
Lemma is_blank_cases c : is_blank c = true -> c = SP \/ c = TAB \/ c = LF.
Proof. unfold is_blank. intro H. apply orb_prop in H as [H|H]; [apply orb_prop in H as [H|H]|]; apply byte_eqb_eq in H; auto. Qed.
Definition has (r : Z) (l : rules) : bool := existsb (fun p => (fst p =? r) && match snd p with Eps => false | _ => true end) l.
(** Checks on the residual rules.  After [l], all blanks lead to the same residual rules, which further blanks do not change ... *)
Definition blank_stable (l : rules) : bool :=
  let l1 := steps SP l in rules_eqb (steps TAB l) l1 && rules_eqb (steps LF l) l1 && rules_eqb (steps SP l1) l1 && rules_eqb (steps TAB l1) l1 && rules_eqb (steps LF l1) l1.
(** ... except inside a quoted identifier, a comment, a string literal and at the start. *)
Definition blank_ok (l : rules) : bool := has 182 l || has 2 l || has 186 l || has 189 l || blank_stable l.
Lemma blank_all : forallb (fun p => blank_ok (snd p)) resid_list = true.
Proof. vm_cast_no_check (eq_refl true). Qed.
Definition first_ok (r : Z) (ok : option Z -> bool) (l : rules) : bool := negb (has r l) || ok (first_nullable l).
Definition ok182 (o : option Z) : bool := match o with None => true | Some r => (r =? 2) || (r =? 188) end.
Lemma ok182_all : forallb (fun p => first_ok 182 ok182 (snd p)) resid_list = true.
Proof. vm_cast_no_check (eq_refl true). Qed.
Definition ok2 (o : option Z) : bool := match o with None => false | Some r => (r =? 1) || (r =? 2) end.
Lemma ok2_all : forallb (fun p => first_ok 2 ok2 (snd p)) resid_list = true.
Proof. vm_cast_no_check (eq_refl true). Qed.
Definition ok186 (o : option Z) : bool := match o with None => false | Some r => r =? 186 end.
Lemma ok186_all : forallb (fun p => first_ok 186 ok186 (snd p)) resid_list = true.
Proof. vm_cast_no_check (eq_refl true). Qed.
Lemma first_after r ok s w : forallb (fun p => first_ok r ok (snd p)) resid_list = true -> is_start s -> ~ In NUL w -> has r (after (active s) w) = true -> ok (first_nullable (after (active s) w)) = true.
Proof.
  intros C ST N H. pose proof (@after_check (first_ok r ok) eq_refl C s w ST N) as P. unfold first_ok in P. rewrite H in P. exact P.
Qed.
(** A quoted identifier cannot extend over the end of a comment; the default rule matches a single byte. *)
Definition q182 (l : rules) : bool := if has 182 l && has 2 l then forallb (fun z => negb (has 182 (steps (byte z) l)) || has 2 (steps (byte z) l)) (zrange 255 1) else true.
Lemma q182_all : forallb (fun p => q182 (snd p)) resid_list = true.
Proof. vm_cast_no_check (eq_refl true). Qed.
Lemma byte_range c : c <> NUL -> In (bz c) (zrange 255 1).
Proof. intro N. apply zrange_In. pose proof (bz_range c). assert (bz c <> 0); [|lia]. intro Z. apply N. rewrite <- (byte_bz c), Z. reflexivity. Qed.
Lemma all_bytes (f : ascii -> bool) : forallb (fun z => f (byte z)) (zrange 255 1) = true -> forall c, c <> NUL -> f c = true.
Proof. intros A c N. rewrite <- (byte_bz c). exact (proj1 (forallb_forall _ _) A _ (byte_range N)). Qed.
Definition gone (l : rules) : bool := negb (has 189 l).
Lemma gone_has l : gone l = true -> has 189 l = true -> False. Proof. unfold gone. intros A B. rewrite B in A. discriminate A. Qed.
Lemma n189_1 : forallb (fun z => gone (steps (byte z) (active 1))) (zrange 255 1) = true. Proof. vm_cast_no_check (eq_refl true). Qed.
Lemma n189_3 : forallb (fun z => gone (steps (byte z) (active 3))) (zrange 255 1) = true. Proof. vm_cast_no_check (eq_refl true). Qed.
Lemma n189_5 : forallb (fun z => gone (steps (byte z) (active 5))) (zrange 255 1) = true. Proof. vm_cast_no_check (eq_refl true). Qed.
Lemma n189_all s c : is_start s -> c <> NUL -> gone (steps c (active s)) = true.
Proof. intros [->|[->| ->]]; [exact (@all_bytes (fun c => gone (steps c (active 1))) n189_1 c)|exact (@all_bytes (fun c => gone (steps c (active 3))) n189_3 c)|exact (@all_bytes (fun c => gone (steps c (active 5))) n189_5 c)]. Qed.
(** A rule alive after a text is alive after its prefixes. *)
Lemma has_steps r c l : has r (steps c l) = true -> has r l = true.
Proof.
  unfold has. intro H. apply existsb_exists in H as ([r' x] & I & E). unfold steps in I. apply filter_In in I as [I A]. apply in_map_iff in I as ([q y] & E2 & I). cbn [fst snd] in *.
  injection E2 as <- <-. apply existsb_exists. exists (q, y). split; [exact I|]. cbn [fst snd]. apply andb_prop in E as [E _]. rewrite E. destruct y; try reflexivity. discriminate A.
Qed.
Lemma has_prefix r u v : forall l, has r (after l (u ++ v)) = true -> has r (after l u) = true.
Proof. induction v as [|c v IH] using rev_ind; intros l H; [rewrite app_nil_r in H; exact H|]. rewrite app_assoc, after_app in H. cbn [after] in H. apply has_steps in H. apply IH. exact H. Qed.
Lemma first_nullable_after s w r : is_start s -> matched (active s) r w -> (forall r', matched (active s) r' w -> r <= r') -> first_nullable (after (active s) w) = Some r.
Proof.
  intros ST M F. assert (SO : sorted (after (active s) w)).
  { generalize (active_sorted ST). generalize (active s). clear. induction w as [|c w IH]; intros l S; [exact S|]. cbn [after]. apply IH. apply steps_sorted. exact S. }
  pose proof (first_nullable_ok (after (active s) w)) as K. destruct (first_nullable (after (active s) w)) as [r0|].
  - destruct K as [K1 K2]. specialize (K2 SO). rewrite after_ok, app_nil_r in K1. assert (r0 <= r) by (apply K2; rewrite after_ok, app_nil_r; exact M). specialize (F _ K1). f_equal. lia.
  - exfalso. apply (K r). rewrite after_ok, app_nil_r. exact M.
Qed.
Lemma best_first s rest r n : is_start s -> best (active s) rest r n -> first_nullable (after (active s) (firstn n rest)) = Some r.
Proof. intros ST (L & M & F). apply first_nullable_after; [exact ST|exact M|]. intros r' M'. apply (F _ n L M'). reflexivity. Qed.
Lemma first_matched l w r : first_nullable (after l w) = Some r -> matched l r w.
Proof. intro E. pose proof (first_nullable_ok (after l w)) as K. rewrite E in K. destruct K as [K _]. rewrite after_ok, app_nil_r in K. exact K. Qed.

(** Replacing what follows. *)
Lemma best_replace l u x y r n : best l (u ++ x) r n -> (n <= List.length u)%nat ->
  (forall v y2 r', y = v ++ y2 -> v <> [] -> matched (after l u) r' v -> exists v' x2 r'', x = v' ++ x2 /\ v' <> [] /\ matched (after l u) r'' v') ->
  best l (u ++ y) r n.
Proof.
  intros (L & M & F) N T. assert (FU : forall m z, (m <= List.length u)%nat -> firstn m (u ++ z) = firstn m u).
  { intros m z Hm. rewrite firstn_app. replace (m - List.length u)%nat with 0%nat by lia. rewrite firstn_O. apply app_nil_r. }
  split; [rewrite app_length; lia|]. split; [rewrite FU in M |- * by exact N; exact M|].
  intros r' m Lm Mm. destruct (Nat.le_gt_cases m (List.length u)) as [LE|GT].
  - rewrite FU in Mm by exact LE. apply (F r' m); [rewrite app_length; lia|]. rewrite FU by exact LE. exact Mm.
  - exfalso. rewrite firstn_split in Mm by lia. rewrite <- after_ok in Mm. destruct (T (firstn (m - List.length u) y) (skipn (m - List.length u) y) r') as (v' & x2 & r'' & -> & NE & MM).
    + symmetry. apply firstn_skipn.
    + intro Z. apply (f_equal (@List.length ascii)) in Z. rewrite app_length in Lm. rewrite firstn_length_le in Z by lia. cbn in Z. lia.
    + exact Mm.
    + rewrite after_ok in MM. destruct (F r'' (List.length (u ++ v'))) as [K _].
      * rewrite !app_length. lia.
      * rewrite app_assoc, firstn_app, Nat.sub_diag, firstn_O, app_nil_r, firstn_all. exact MM.
      * rewrite app_length in K. destruct v'; [congruence|]. cbn [List.length] in K. lia.
Qed.
Lemma stable_after l ws : blank_stable l = true -> blank ws -> after l ws = steps SP l.
Proof.
  intros B [NE F]. unfold blank_stable in B. repeat (apply andb_prop in B as [B ?H]). apply rules_eqb_ok in B. apply rules_eqb_ok in H, H0, H1, H2.
  assert (S1 : forall c, is_blank c = true -> steps c l = steps SP l) by (intros c C; destruct (is_blank_cases C) as [->|[->| ->]]; congruence).
  assert (S2 : forall c, is_blank c = true -> steps c (steps SP l) = steps SP l) by (intros c C; destruct (is_blank_cases C) as [->|[->| ->]]; congruence).
  destruct ws as [|c ws]; [congruence|]. cbn [forallb] in F. apply andb_prop in F as [F1 F2]. cbn [after]. rewrite (S1 _ F1). clear NE F1. induction ws as [|d ws IH]; [reflexivity|].
  cbn [forallb] in F2. apply andb_prop in F2 as [F1 F2]. cbn [after]. rewrite (S2 _ F1). auto.
Qed.
Lemma matched_after l u r v : matched (after l u) r v <-> matched l r (u ++ v). Proof. apply after_ok. Qed.
Lemma blank_transfer l ws ws' b : blank_stable l = true -> blank ws -> blank ws' ->
  forall v y2 r', ws' ++ b = v ++ y2 -> v <> [] -> matched l r' v -> exists v' x2 r'', ws ++ b = v' ++ x2 /\ v' <> [] /\ matched l r'' v'.
Proof.
  intros B W W' v y2 r' E NE M.
  assert (C : (exists w, ws' = v ++ w) \/ (exists w, v = ws' ++ w /\ b = w ++ y2)).
  { clear -E. revert v E. induction ws' as [|c ws' IH]; intros [|d v] E; cbn [app] in E.
    - left. now exists []. - right. exists (d :: v). auto. - left. now exists (c :: ws'). - injection E as <- E. destruct (IH _ E) as [[w ->]|(w & -> & ->)]; [left; now exists w|right; now exists w]. }
  destruct C as [[w ->]|(w & -> & ->)].
  - exists ws, b, r'. split; [reflexivity|]. split; [apply W|]. assert (BV : blank v) by (split; [exact NE|]; destruct W' as [_ W']; rewrite forallb_app in W'; apply andb_prop in W' as [W' _]; exact W').
    rewrite <- (app_nil_r v) in M. rewrite <- (app_nil_r ws). rewrite <- after_ok in M |- *. rewrite (stable_after B BV) in M. rewrite (stable_after B W). exact M.
  - exists (ws ++ w), y2, r'. split; [apply app_assoc|]. split; [destruct W as [W _]; destruct ws; [congruence|discriminate]|].
    rewrite <- after_ok in M |- *. rewrite (stable_after B W') in M. rewrite (stable_after B W). exact M.
Qed.
Lemma scans_shrink s buf rest l s' buf' rest' : scans s buf rest l s' buf' rest' -> (List.length rest' <= List.length rest)%nat.
Proof. intro H. destruct (scans_suffix H) as [a ->]. rewrite app_length. lia. Qed.
Lemma scans_same s buf rest l s' buf' : scans s buf rest l s' buf' rest -> s = s' /\ buf = buf' /\ l = [].
Proof.
  intro H. inversion H as [s2 b2 r2 ST|s2 b2 r2 r n st' l2 s3 b3 r3 ST NE B R N E H2|s2 b2 r2 r n c v st' l2 s3 b3 r3 ST NE B R N E C H2]; subst; [auto| |]; exfalso;
    apply scans_shrink in H2; rewrite skipn_length in H2; destruct B as [B _]; lia.
Qed.
Lemma run_rule_start r t st : match run_rule r t st with
  | Skip st' => lx_start st' = (if r =? 1 then 5 else if r =? 3 then 1 else if r =? 184 then 3 else lx_start st)
  | Ret _ _ st' => lx_start st' = (if r =? 187 then 1 else lx_start st) end.
Proof.
  unfold run_rule. rule_cases; cbn [lx_start]; try (exfalso; lia);
    repeat match goal with |- context [?a =? ?b] => destruct (a =? b) eqn:?; try (exfalso; lia) end; try reflexivity.
  - destruct (strtoll0 t); reflexivity.
  - destruct (token_rule r); reflexivity.
Qed.
Lemma has_active r s : is_start s -> has r (active s) = true -> (r = 2 -> s = 5) /\ (r = 186 -> s = 3).
Proof.
  intros ST H. split; intros ->; destruct ST as [->|[->| ->]]; try reflexivity; vm_compute in H; discriminate H.
Qed.
Lemma after_0 l : after l [] = l. Proof. reflexivity. Qed.
Lemma after_1 l c : after l [c] = steps c l. Proof. reflexivity. Qed.
Lemma where_2 : rule_where 2 = CommentOnly. Proof. vm_compute. reflexivity. Qed.
Lemma has_2_5 : has 2 (after (active 5) []) = true. Proof. vm_compute. reflexivity. Qed.
Lemma has_2_182 a : ~ In NUL a -> has 182 (after (active 5) a) = true -> has 2 (after (active 5) a) = true.
Proof.
  intros N H. assert (ST : is_start 5) by (right; right; reflexivity). pose proof has_2_5 as H0. revert ST H H0. generalize 5. intros s ST H H0. induction a as [|c a IH] using rev_ind; [exact H0|]. rewrite after_app in H |- *. cbn [after] in *.
  assert (NA : ~ In NUL a) by (intro I; apply N; apply in_or_app; now left). assert (NC : c <> NUL) by (intros ->; apply N; apply in_or_app; right; now left).
  pose proof (has_steps H) as H1. specialize (IH NA H1). pose proof (@after_check q182 eq_refl q182_all s a ST NA) as Q. unfold q182 in Q. rewrite H1, IH in Q. cbn [andb] in Q.
  pose proof (proj1 (forallb_forall _ _) Q _ (byte_range NC)) as Q1. cbn beta in Q1. rewrite byte_bz, H in Q1. exact Q1.
Qed.
Lemma no_189 s a : is_start s -> ~ In NUL a -> a <> [] -> has 189 (after (active s) a) = true -> False.
Proof.
  intros ST N NE H. destruct a as [|c a]; [congruence|]. change (c :: a) with ([c] ++ a) in H. apply has_prefix in H. rewrite after_1 in H.
  assert (NC : c <> NUL) by (intros ->; apply N; now left). exact (gone_has (n189_all ST NC) H).
Qed.
Lemma blank_step s buf a ws ws' b r n : is_start s -> blank ws -> blank ws' -> ~ In NUL a -> best (active s) (a ++ ws ++ b) r n -> (1 <= n <= List.length a)%nat -> r <> 188 ->
    (n = List.length a -> match run_rule r (firstn n (a ++ ws ++ b)) (mkLex s buf pos0) with Skip st' => lx_start st' = 1 | Ret _ _ st' => lx_start st' = 1 end) -> best (active s) (a ++ ws' ++ b) r n.
Proof.
  intros ST W W' N B L R E. apply (best_replace B (proj2 L)). apply blank_transfer; auto.
    pose proof (best_first ST B) as FN. assert (FA : firstn n (a ++ ws ++ b) = firstn n a).
    { rewrite firstn_app. replace (n - List.length a)%nat with 0%nat by lia. rewrite firstn_O. apply app_nil_r. }
    assert (NP : ~ In NUL (firstn n a)) by (intro I; apply N; rewrite <- (firstn_skipn n a); apply in_or_app; now left).
    assert (HP : forall q, has q (after (active s) a) = true -> has q (after (active s) (firstn n a)) = true).
    { intros q H. rewrite <- (firstn_skipn n a) in H. apply has_prefix in H. exact H. }
    assert (H0 : forall q, has q (after (active s) a) = true -> has q (active s) = true).
    { intros q H. change a with ([] ++ a) in H. apply has_prefix in H. rewrite after_0 in H. exact H. }
    assert (FULL : forall q, first_nullable (after (active s) a) = Some q -> n = List.length a).
    { intros q H. apply first_matched in H. destruct B as (_ & _ & B). destruct (B q (List.length a)) as [K _]; [rewrite app_length; lia| |lia].
      rewrite firstn_app, firstn_all, Nat.sub_diag, firstn_O, app_nil_r. exact H. }
    pose proof (@after_check blank_ok eq_refl blank_all s a ST N) as BO. unfold blank_ok in BO.
    pose proof (run_rule_start r (firstn n (a ++ ws ++ b)) (mkLex s buf pos0)) as RS. cbn [lx_start] in RS. rewrite FA in FN.
    assert (C2 : has 2 (after (active s) a) = true -> False).
    { intro H. pose proof (@first_after 2 ok2 s a ok2_all ST N H) as K. destruct (first_nullable (after (active s) a)) as [q|] eqn:Q; [|discriminate K]. specialize (FULL _ eq_refl).
      pose proof (proj1 (@has_active 2 s ST (H0 _ H)) eq_refl) as S5. rewrite FULL, firstn_all in FN. assert (q = r) by congruence. subst q. cbn [ok2] in K. specialize (E FULL).
      assert (R12 : r = 1 \/ r = 2) by lia. destruct (run_rule r (firstn n (a ++ ws ++ b)) (mkLex s buf pos0)) as [st'|c v st']; rewrite E in RS; destruct R12 as [->| ->]; cbn in RS; lia. }
    assert (C186 : has 186 (after (active s) a) = true -> False).
    { intro H. pose proof (@first_after 186 ok186 s a ok186_all ST N H) as K. destruct (first_nullable (after (active s) a)) as [q|] eqn:Q; [|discriminate K]. specialize (FULL _ eq_refl).
      pose proof (proj2 (@has_active 186 s ST (H0 _ H)) eq_refl) as S5. rewrite FULL, firstn_all in FN. assert (q = r) by congruence. subst q. cbn [ok186] in K. specialize (E FULL).
      assert (r = 186) by lia. subst r. destruct (run_rule 186 (firstn n (a ++ ws ++ b)) (mkLex s buf pos0)) as [st'|c v st']; rewrite E in RS; cbn in RS; lia. }
    assert (C182 : has 182 (after (active s) a) = true -> False).
    { intro H. pose proof (@first_after 182 ok182 s _ ok182_all ST NP (HP _ H)) as K. rewrite FN in K. cbn [ok182] in K. assert (R2 : r = 2) by lia. subst r.
      assert (S5 : s = 5). { destruct B as (_ & B & _). apply matched_rule in B as [_ [B|B]]; [lia|]. rewrite where_2 in B. cbn [applies] in B. lia. }
      destruct (Nat.eq_dec n (List.length a)) as [EQ|NEQ].
      - specialize (E EQ). destruct (run_rule 2 (firstn n (a ++ ws ++ b)) (mkLex s buf pos0)) as [st'|c v st']; rewrite E in RS; cbn in RS; lia.
      - (* the byte after the comment text is a newline, which ends rule 182 *)
        apply C2. subst s. apply (has_2_182 N H). }
    assert (C189 : has 189 (after (active s) a) = true -> False).
    { apply no_189; [exact ST|exact N|]. destruct a; [cbn in L; lia|discriminate]. }
    destruct (has 182 (after (active s) a)); [destruct (C182 eq_refl)|]. destruct (has 2 (after (active s) a)); [destruct (C2 eq_refl)|].
    destruct (has 186 (after (active s) a)); [destruct (C186 eq_refl)|]. destruct (has 189 (after (active s) a)); [destruct (C189 eq_refl)|]. exact BO.
Qed.
Lemma scans_blank s buf rest l s' buf' rest' : scans s buf rest l s' buf' rest' -> forall a ws ws' b, blank ws -> blank ws' -> s' = 1 -> rest' = ws ++ b -> rest = a ++ ws ++ b -> ~ In NUL a ->
  scans s buf (a ++ ws' ++ b) l 1 buf' (ws' ++ b).
Proof.
  assert (SPLIT : forall (n : nat) (a a2 rest x : bytes), rest = a ++ x -> skipn n rest = a2 ++ x -> (n <= List.length rest)%nat -> (n <= List.length a)%nat /\ a2 = skipn n a /\ (n = List.length a -> a2 = [])).
  { clear. intros n a a2 rest x -> E L. rewrite app_length in L. assert (K := f_equal (@List.length ascii) E). rewrite skipn_length, !app_length in K.
    assert (LE : (n <= List.length a)%nat) by lia. rewrite skipn_app in E. replace (n - List.length a)%nat with 0%nat in E by lia. cbn [skipn] in E. apply app_inv_tail in E. split; [exact LE|]. split; [symmetry; exact E|].
    intros ->. destruct a2; [reflexivity|]. cbn in K. lia. }
  induction 1 as [s buf rest ST|s buf rest r n st' l s' buf' rest' ST NE B R N E H IH|s buf rest r n c v st' l s' buf' rest' ST NE B R N E C H IH]; intros a ws ws' b W W' -> E1 E2 NA.
  - assert (a = []). { rewrite E1 in E2. apply (f_equal (@List.length ascii)) in E2. rewrite (app_length a) in E2. destruct a; [reflexivity|]. cbn in E2. lia. }
    subst a. cbn [app]. apply sc_refl. left. reflexivity.
  - destruct (scans_suffix H) as [a2 E3]. subst rest rest'. destruct (SPLIT n a a2 _ _ eq_refl E3 (proj1 B)) as (LE & EA & EN).
    assert (FA : forall x, firstn n (a ++ x) = firstn n a). { intro x. rewrite firstn_app. replace (n - List.length a)%nat with 0%nat by lia. rewrite firstn_O. apply app_nil_r. }
    assert (SA : forall x, skipn n (a ++ x) = a2 ++ x). { intro x. rewrite skipn_app. replace (n - List.length a)%nat with 0%nat by lia. subst a2. reflexivity. }
    assert (NA2 : ~ In NUL a2) by (subst a2; apply skipn_NUL; exact NA).
    eapply sc_skip with (r := r) (n := n); [exact ST| | |exact R|exact N|rewrite FA in E |- *; exact E|].
    + destruct a; [|discriminate]. cbn in LE. lia.
    + eapply blank_step with (ws := ws) (buf := buf); eauto. { intros ->. unfold run_rule in E. cbn in E. discriminate E. }
      intro K. specialize (EN K). rewrite E. rewrite EN in SA. cbn [app] in SA. rewrite SA in H. apply scans_same in H. apply H.
    + rewrite SA. apply IH with (ws := ws); auto.
  - destruct (scans_suffix H) as [a2 E3]. subst rest rest'. destruct (SPLIT n a a2 _ _ eq_refl E3 (proj1 B)) as (LE & EA & EN).
    assert (FA : forall x, firstn n (a ++ x) = firstn n a). { intro x. rewrite firstn_app. replace (n - List.length a)%nat with 0%nat by lia. rewrite firstn_O. apply app_nil_r. }
    assert (SA : forall x, skipn n (a ++ x) = a2 ++ x). { intro x. rewrite skipn_app. replace (n - List.length a)%nat with 0%nat by lia. subst a2. reflexivity. }
    assert (NA2 : ~ In NUL a2) by (subst a2; apply skipn_NUL; exact NA).
    eapply sc_tok with (r := r) (n := n); [exact ST| | |exact R|exact N|rewrite FA in E |- *; exact E|exact C|].
    + destruct a; [|discriminate]. cbn in LE. lia.
    + eapply blank_step with (ws := ws) (buf := buf); eauto. { intros ->. unfold run_rule in E. cbn in E. injection E as <- _ _. lia. }
      intro K. specialize (EN K). rewrite E. rewrite EN in SA. cbn [app] in SA. rewrite SA in H. apply scans_same in H. apply H.
    + rewrite SA. apply IH with (ws := ws); auto.
Qed.
