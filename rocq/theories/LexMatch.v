(** One scanner iteration: longest match, first rule; and the totality of the scanner.  No code of /repo. *)
From Verif Require Import Base FlexTables TokenCodes LexRules LexModel Regex LexSpec LexCert TableCheck LexProof.
From Coq Require Import ZifyBool ZifyNat ZifyN Sorting.Sorted.
Local Open Scope Z_scope.
Set Implicit Arguments.
Unset Strict Implicit.

Lemma resid_In s l : resid s = Some l -> In (s, l) resid_list.
Proof.
  assert (E : resid_trie = fold_right (fun p t => tset t (tidx (fst p)) (snd p)) TNil resid_list) by (vm_compute; reflexivity).
  assert (P : forall p, In p resid_list -> 0 <= fst p).
  { assert (A : forallb (fun p => 0 <=? fst p) resid_list = true) by (vm_compute; reflexivity). rewrite forallb_forall in A. intros p I. specialize (A _ I). lia. }
  assert (NEG : forall q, s = Zneg q -> tget resid_trie (tidx s) = None) by (intros q ->; reflexivity).
  unfold resid. intro H. assert (S0 : 0 <= s) by (destruct s; try lia; rewrite (NEG _ eq_refl) in H; discriminate). clear NEG.
  rewrite E in H. clear E. revert P H. generalize resid_list as k. induction k as [|p k IH]; intros P H; cbn [fold_right] in H; [destruct (tidx s); discriminate|].
  assert (G : forall t q q' (v : rules), tget (tset t q v) q' = if Pos.eqb q q' then Some v else tget t q').
  { clear. intros t q. revert t. induction q as [q IH|q IH|]; intros [|a o b] [q'|q'|] v; cbn [tset tget Pos.eqb]; try reflexivity; try (rewrite IH; destruct (Pos.eqb q q'); try reflexivity; destruct q'; reflexivity). }
  rewrite G in H. destruct (Pos.eqb (tidx (fst p)) (tidx s)) eqn:EQ.
  - injection H as <-. left. apply Pos.eqb_eq in EQ. specialize (P p). assert (0 <= fst p) by (apply P; now left).
    destruct p as [f l0]. cbn [fst snd] in *. f_equal. destruct f, s; cbn [tidx] in EQ; lia.
  - right. apply IH; [|exact H]. intros q I. apply P. now right.
Qed.
Lemma bz_range c : 0 <= bz c < 256.
Proof. unfold bz. pose proof (N_ascii_bounded c). lia. Qed.
Lemma byte_bz c : byte (bz c) = c.
Proof. unfold byte, bz. rewrite N2Z.id. apply ascii_N_embedding. Qed.
Lemma state_facts s l : resid s = Some l ->
  (forall c, c <> NUL -> exists e t, get yy_ec (bz c) = Some e /\ yy_next s e = Some t /\
     (t = YY_JAM /\ steps c l = [] \/ t <> YY_JAM /\ steps c l <> [] /\ resid t = Some (steps c l))) /\
  (exists a, get yy_accept s = Some a /\ 0 <= a <= 189 /\ first_nullable l = if a =? 0 then None else Some a) /\
  (exists e, get yy_ec (bz NUL) = Some e /\ yy_next s e = Some EOB).
Proof.
  intro R. apply resid_In in R. pose proof lex_states_ok as A. rewrite forallb_forall in A. specialize (A _ R). cbn [fst snd] in A. unfold lex_state_ok in A.
  apply andb_prop in A as [A A3]. apply andb_prop in A as [A1 A2]. split; [|split].
  - intros c N. rewrite forallb_forall in A1. specialize (A1 (bz c)).
    assert (I : In (bz c) (zrange 255 1)).
    { apply zrange_In. pose proof (bz_range c). assert (bz c <> 0); [|lia]. intro Z. apply N. rewrite <- (byte_bz c), Z. reflexivity. }
    specialize (A1 I). unfold byte_ok in A1. destruct (get yy_ec (bz c)) as [e|] eqn:EE; [|discriminate]. destruct (yy_next s e) as [t|] eqn:ET; [|discriminate].
    exists e, t. split; [reflexivity|]. split; [exact ET|]. rewrite byte_bz in A1. destruct (t =? YY_JAM) eqn:J.
    + left. split; [lia|]. destruct (steps c l); [reflexivity|discriminate].
    + right. split; [lia|]. destruct (resid t) as [l'|]; [|discriminate]. apply andb_prop in A1 as [A1 A4]. apply rules_eqb_ok in A1. rewrite A1. destruct l'; [discriminate|].
      split; [discriminate|reflexivity].
  - destruct (get yy_accept s) as [a|]; [|discriminate]. exists a. split; [reflexivity|]. apply andb_prop in A2 as [A2 A4]. apply andb_prop in A2 as [A2 A5].
    split; [lia|]. destruct (a =? 0), (first_nullable l); cbn in A2; try discriminate; f_equal; lia.
  - change (bz NUL) with 0. destruct (get yy_ec 0) as [e|]; [|discriminate]. exists e. split; [reflexivity|]. destruct (yy_next s e); cbn in A3; [f_equal; lia|discriminate].
Qed.
Lemma eob_facts : get yy_accept EOB = Some 190 /\ exists e, get yy_ec (bz NUL) = Some e /\ yy_next EOB e = Some YY_JAM.
Proof. split; [vm_compute; reflexivity|]. eexists. split; vm_compute; reflexivity. Qed.

(** The bookkeeping of the last accepting state corresponds to the best rule so far. *)
Definition conv (last : option (Z * nat)) (o : option (Z * nat)) : Prop :=
  match last, o with
  | None, None => True
  | Some (s, n), Some (r, m) => get yy_accept s = Some r /\ n = m /\ 1 <= r <= 189
  | _, _ => False
  end.
Lemma conv_better s l pos last o : resid s = Some l -> conv last o ->
  exists a, get yy_accept s = Some a /\ conv (if a =? 0 then last else Some (s, pos)) (better l pos o).
Proof.
  intros R C. destruct (state_facts R) as (_ & (a & EA & RA & FN) & _). exists a. split; [exact EA|]. unfold better. rewrite FN.
  destruct (a =? 0) eqn:Z; [exact C|]. cbn [conv]. repeat split; auto; lia.
Qed.
Lemma match_sim rest : forall s l pos last o, resid s = Some l -> conv last o -> ~ In NUL rest ->
  (exists last', yy_match (rest ++ [NUL; NUL]) pos s last = Some last' /\ conv last' (scan l rest pos o)) \/
  (yy_match (rest ++ [NUL; NUL]) pos s last = Some (Some (EOB, (pos + S (List.length rest))%nat)) /\
   exists s' last' l', yy_previous rest pos s last = Some (s', last') /\ resid s' = Some l' /\
     exists o', conv last' o' /\ scan l rest pos o = better l' (pos + List.length rest)%nat o').
Proof.
  induction rest as [|c rest IH]; intros s l pos last o R C NN.
  - right. cbn [app yy_match]. destruct (conv_better pos R C) as (a & EA & CB). destruct (state_facts R) as (_ & _ & (e & EE & EN)).
    rewrite EE. cbn [obind]. rewrite EA. cbn [obind]. rewrite EN. cbn [obind]. change (EOB =? YY_JAM) with false. cbv iota.
    destruct eob_facts as (EA7 & e7 & EE7 & EN7). assert (e7 = e) by congruence. subst e7. rewrite EA7. cbn [obind]. rewrite EN7. cbn [obind].
    change (190 =? 0) with false. change (YY_JAM =? YY_JAM) with true. cbv iota. split; [f_equal; f_equal; f_equal; cbn; lia|].
    cbn [yy_previous]. exists s, last, l. split; [reflexivity|]. split; [exact R|]. exists o. split; [exact C|]. cbn [scan List.length]. now rewrite Nat.add_0_r.
  - cbn [app yy_match yy_previous]. destruct (conv_better pos R C) as (a & EA & CB). destruct (state_facts R) as (SF & _ & _).
    destruct (SF c) as (e & t & EE & EN & CASE); [intros ->; apply NN; now left|].
    rewrite EE. cbn [obind]. rewrite EA. cbn [obind]. rewrite EN. cbn [obind scan].
    destruct CASE as [[-> ES]|(NJ & ES & RT)].
    + left. change (YY_JAM =? YY_JAM) with true. cbv iota. rewrite ES. eauto.
    + destruct (t =? YY_JAM) eqn:J; [lia|]. destruct (steps c l) as [|p l'] eqn:EL; [congruence|]. rewrite <- EL in *.
      destruct (IH t (steps c l) (S pos) (if a =? 0 then last else Some (s, pos)) (better l pos o) RT CB) as [(last' & E & CV)|(E & s' & last' & l2 & EP & R2 & o' & CV & SC)].
      * intro I. apply NN. now right.
      * left. eauto.
      * right. split; [rewrite E; f_equal; f_equal; f_equal; cbn [List.length]; lia|]. exists s', last', l2. split; [exact EP|]. split; [exact R2|]. exists o'. split; [exact CV|].
        rewrite SC. f_equal. cbn [List.length]. lia.
Qed.
Definition is_start (s : Z) : Prop := s = 1 \/ s = 3 \/ s = 5.
Lemma active_resid s : is_start s -> resid s = Some (active s).
Proof. intros [->|[->| ->]]; vm_compute; reflexivity. Qed.
Lemma sortedb l : (fix go (l : rules) := match l with [] => true | p :: l' => forallb (fun q => fst p <=? fst q) l' && go l' end) l = true -> sorted l.
Proof.
  induction l as [|p l IH]; intro H; [constructor|]. apply andb_prop in H as [H1 H2]. constructor; [apply IH; exact H2|].
  apply Forall_forall. intros q I. rewrite forallb_forall in H1. specialize (H1 _ I). lia.
Qed.
Lemma active_sorted s : is_start s -> sorted (active s).
Proof. intros [->|[->| ->]]; apply sortedb; vm_compute; reflexivity. Qed.
(** Every single byte is matched by some rule. *)
Lemma active_any s c : is_start s -> c <> NUL -> exists r, matched (active s) r [c].
Proof.
  intros S N. exists 189. exists (Alt Any (Chr LF)). split.
  - assert (A : existsb (rule_eqb (189, Alt Any (Chr LF))) (active s) = true) by (destruct S as [->|[->| ->]]; vm_compute; reflexivity).
    apply existsb_exists in A as ((r & x) & I & E). unfold rule_eqb in E. cbn [fst snd] in E. apply andb_prop in E as [E1 E2]. apply rx_eqb_ok in E2.
    apply Z.eqb_eq in E1. rewrite E1, E2. exact I.
  - assert (Z : bz c <> 0) by (intro Z; apply N; rewrite <- (byte_bz c), Z; reflexivity).
    destruct (Z.eq_dec (bz c) 10) as [E|E]; [apply m_right|apply m_left]; constructor; unfold in_class; change (bz LF) with 10; cbn [existsb fst snd]; lia.
Qed.
(** ** Longest match, first rule *)
Theorem lex_match_best start rest : is_start start -> ~ In NUL rest -> rest <> [] ->
  exists r n, lex_match start rest = Some (ARule r n) /\ best (active start) rest r n /\ (1 <= n)%nat /\ 1 <= r <= 189.
Proof.
  intros ST NN NE. pose proof (active_resid ST) as R. pose proof (active_sorted ST) as SO.
  assert (B : exists r n, scan (active start) rest 0 None = Some (r, n) /\ best (active start) rest r n /\ (1 <= n)%nat).
  { destruct rest as [|c rest]; [congruence|]. destruct (@active_any start c ST) as (r0 & M0); [intros ->; apply NN; now left|].
    destruct (scan_ok (c :: rest) 0 None SO) as [(r & n & E & B)|[_ NO]].
    - exists r, n. split; [exact E|]. split; [exact B|]. destruct B as (_ & _ & B). destruct (B r0 1%nat) as [B1 _]; [cbn; lia|exact M0|]. exact B1.
    - exfalso. apply (NO r0 1%nat); [cbn; lia|exact M0]. }
  destruct B as (r & n & SC & BE & N1). unfold lex_match.
  destruct (@match_sim rest start (active start) 0%nat None None R I NN) as [(last' & E & CV)|(E & s' & last' & l' & EP & R2 & o' & CV & SC2)].
  - rewrite E. cbn [obind]. rewrite SC in CV. destruct last' as [[s1 n1]|]; [|destruct CV]. destruct CV as (EA & -> & RR). cbn [obind fst snd]. rewrite EA. cbn [obind].
    destruct (r =? 0) eqn:Z0; [lia|]. destruct (r =? YY_END_OF_BUFFER) eqn:Z1; [unfold YY_END_OF_BUFFER in Z1; lia|]. exists r, n. auto.
  - rewrite E. cbn [obind fst snd]. destruct eob_facts as (EA7 & _). rewrite EA7. cbn [obind]. change (190 =? 0) with false. change (190 =? YY_END_OF_BUFFER) with true. cbv iota.
    cbn [plus]. rewrite Nat.eqb_refl. cbn [negb]. destruct (Nat.eqb (S (List.length rest)) 1) eqn:L1; [apply Nat.eqb_eq in L1; destruct rest; [congruence|discriminate L1]|].
    rewrite EP. cbn [obind fst snd]. destruct (state_facts R2) as (_ & (a & EA & RA & FN) & _). rewrite EA. cbn [obind].
    destruct (a =? YY_END_OF_BUFFER) eqn:Z1; [unfold YY_END_OF_BUFFER in Z1; lia|]. cbn [plus] in SC2. rewrite SC in SC2. unfold better in SC2. rewrite FN in SC2.
    destruct (a =? 0) eqn:Z0.
    + rewrite <- SC2 in CV. destruct last' as [[s1 n1]|]; [|destruct CV]. destruct CV as (EA2 & -> & RR). cbn [obind fst snd]. rewrite EA2. cbn [obind].
      destruct (r =? 0) eqn:Z2; [lia|]. destruct (r =? YY_END_OF_BUFFER) eqn:Z3; [unfold YY_END_OF_BUFFER in Z3; lia|]. cbn [orb]. exists r, n. auto.
    + injection SC2 as -> ->. exists a, (List.length rest). split; [reflexivity|]. split; [exact BE|]. split; [exact N1|lia].
Qed.
Theorem lex_match_eof start : is_start start -> lex_match start [] = Some AEof.
Proof. intros [->|[->| ->]]; vm_compute; reflexivity. Qed.
