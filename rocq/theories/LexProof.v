(** The scanner's automaton implements the rules of flex_lexer.l: longest match, first rule.  No code of /repo. *)
From Verif Require Import Base FlexTables LexModel Regex LexSpec LexCert TableCheck.
From Coq Require Import ZifyBool ZifyNat ZifyN Sorting.Sorted.
Local Open Scope Z_scope.
Set Implicit Arguments.
Unset Strict Implicit.

(** ** Derivatives *)
Fixpoint nullable (r : rx) : bool :=
  match r with Nothing | Cls _ _ => false | Eps | Star _ => true | Cat a b => nullable a && nullable b | Alt a b => nullable a || nullable b end.
Definition cat (a b : rx) : rx := match a with Nothing => Nothing | Eps => b | _ => Cat a b end.
Definition alt (a b : rx) : rx := match a, b with Nothing, _ => b | _, Nothing => a | _, _ => Alt a b end.
Fixpoint deriv (c : ascii) (r : rx) : rx :=
  match r with
  | Nothing | Eps => Nothing
  | Cls n l => if in_class n l c then Eps else Nothing
  | Cat a b => alt (cat (deriv c a) b) (if nullable a then deriv c b else Nothing)
  | Alt a b => alt (deriv c a) (deriv c b)
  | Star a => cat (deriv c a) (Star a)
  end.
Lemma matches_nothing w : ~ matches Nothing w. Proof. inversion 1. Qed.
Lemma matches_eps w : matches Eps w <-> w = [].
Proof. split; [now inversion 1|intros ->; constructor]. Qed.
Lemma matches_cat a b w : matches (Cat a b) w <-> exists u v, w = u ++ v /\ matches a u /\ matches b v.
Proof. split; [inversion 1; subst; eauto 6|intros (u & v & -> & A & B); now constructor]. Qed.
Lemma matches_alt a b w : matches (Alt a b) w <-> matches a w \/ matches b w.
Proof. split; [inversion 1; auto|intros [H|H]; [now apply m_left|now apply m_right]]. Qed.
Lemma cat_ok a b w : matches (cat a b) w <-> matches (Cat a b) w.
Proof.
  destruct a; cbn [cat]; try reflexivity.
  - split; [inversion 1|]. rewrite matches_cat. intros (u & v & _ & H & _). inversion H.
  - rewrite matches_cat. split; [intro H; exists [], w; repeat split; [constructor|exact H]|]. intros (u & v & -> & H & K). apply matches_eps in H as ->. exact K.
Qed.
Lemma alt_ok a b w : matches (alt a b) w <-> matches a w \/ matches b w.
Proof.
  assert (N1 : alt Nothing b = b) by reflexivity.
  assert (N2 : alt a Nothing = a) by (destruct a; reflexivity).
  assert (D : a = Nothing \/ b = Nothing \/ alt a b = Alt a b) by (destruct a, b; auto).
  destruct D as [->|[->| ->]].
  - rewrite N1. split; [auto|intros [H|H]; [inversion H|exact H]].
  - rewrite N2. split; [auto|intros [H|H]; [exact H|inversion H]].
  - apply matches_alt.
Qed.
Lemma nullable_ok r : nullable r = true <-> matches r [].
Proof.
  induction r; cbn [nullable].
  - split; [discriminate|inversion 1].
  - split; [constructor|reflexivity].
  - split; [discriminate|inversion 1].
  - rewrite andb_true_iff, IHr1, IHr2, matches_cat. split; [intros [H K]; exists [], []; auto|].
    intros (u & v & E & H & K). symmetry in E. apply app_eq_nil in E as [-> ->]. auto.
  - rewrite orb_true_iff, IHr1, IHr2, matches_alt. reflexivity.
  - split; [constructor|reflexivity].
Qed.
Lemma star_cons a w : matches (Star a) w -> forall c v, w = c :: v -> exists u t, v = u ++ t /\ matches a (c :: u) /\ matches (Star a) t.
Proof.
  intro H. remember (Star a) as s eqn:E. induction H; try discriminate; injection E as ->; intros c v0 EQ; try discriminate EQ.
  destruct u as [|c' u]; cbn [app] in EQ.
  - apply IHmatches2; auto.
  - injection EQ as -> <-. exists u, v. auto.
Qed.
Lemma deriv_ok c r : forall w, matches (deriv c r) w <-> matches r (c :: w).
Proof.
  induction r as [| |n l|a IHa b IHb|a IHa b IHb|a IHa]; intro w; cbn [deriv].
  - split; inversion 1.
  - split; inversion 1.
  - destruct (in_class n l c) eqn:E.
    + rewrite matches_eps. split; [intros ->; now constructor|now inversion 1].
    + split; [inversion 1|]. inversion 1; congruence.
  - rewrite alt_ok, cat_ok, !matches_cat. split.
    + intros [(u & v & -> & H & K)|H].
      * exists (c :: u), v. rewrite <- IHa. auto.
      * destruct (nullable a) eqn:N; [|inversion H]. exists [], (c :: w). rewrite <- nullable_ok, <- IHb. auto.
    + intros (u & v & E & H & K). destruct u as [|c' u]; cbn [app] in E.
      * right. apply nullable_ok in H. rewrite H, IHb, E. exact K.
      * injection E as <- ->. left. exists u, v. rewrite IHa. auto.
  - rewrite alt_ok, IHa, IHb, matches_alt. reflexivity.
  - rewrite cat_ok, matches_cat. split.
    + intros (u & v & -> & H & K). apply IHa in H. change (c :: u ++ v) with ((c :: u) ++ v). now constructor.
    + intro H. destruct (star_cons H eq_refl) as (u & t & -> & A & S). exists u, t. rewrite IHa. auto.
Qed.

(** ** Sets of rules *)
Definition rules := list (Z * rx).
Definition alive (p : Z * rx) : bool := match snd p with Nothing => false | _ => true end.
Definition steps (c : ascii) (l : rules) : rules := filter alive (map (fun p => (fst p, deriv c (snd p))) l).
Fixpoint first_nullable (l : rules) : option Z :=
  match l with [] => None | (r, x) :: l' => if nullable x then Some r else first_nullable l' end.
Definition better (l : rules) (pos : nat) (last : option (Z * nat)) : option (Z * nat) :=
  match first_nullable l with Some r => Some (r, pos) | None => last end.
Fixpoint scan (l : rules) (rest : bytes) (pos : nat) (last : option (Z * nat)) : option (Z * nat) :=
  match rest with
  | [] => better l pos last
  | c :: rest' => match steps c l with [] => better l pos last | l' => scan l' rest' (S pos) (better l pos last) end
  end.
Definition matched (l : rules) (r : Z) (w : bytes) : Prop := exists x, In (r, x) l /\ matches x w.
Lemma steps_ok c l r w : matched (steps c l) r w <-> matched l r (c :: w).
Proof.
  unfold matched, steps. split.
  - intros (x & I & M). apply filter_In in I as [I _]. apply in_map_iff in I as ((r' & y) & E & I). cbn [fst snd] in E. injection E as -> <-.
    exists y. split; [exact I|]. now apply deriv_ok.
  - intros (x & I & M). exists (deriv c x). apply deriv_ok in M. split; [|exact M]. apply filter_In. split.
    + apply in_map_iff. exists (r, x). auto.
    + unfold alive. cbn [snd]. destruct (deriv c x); try reflexivity. inversion M.
Qed.
Definition sorted (l : rules) : Prop := StronglySorted (fun a b => fst a <= fst b) l.
Lemma steps_sorted c l : sorted l -> sorted (steps c l).
Proof.
  unfold sorted, steps. induction 1 as [|p l S IH F]; cbn [map filter]; [constructor|].
  assert (G : Forall (fun b => fst p <= fst b) (filter alive (map (fun q => (fst q, deriv c (snd q))) l))).
  { rewrite Forall_forall in *. intros q I. apply filter_In in I as [I _]. apply in_map_iff in I as (q' & <- & I). cbn [fst]. auto. }
  destruct (alive _); [constructor; [exact IH|exact G]|exact IH].
Qed.
Lemma first_nullable_ok l : match first_nullable l with Some r => matched l r [] /\ (sorted l -> forall r', matched l r' [] -> r <= r') | None => forall r', ~ matched l r' [] end.
Proof.
  induction l as [|(r, x) l IH]; cbn [first_nullable]; [intros r' (x & [] & _)|]. destruct (nullable x) eqn:N.
  - split; [exists x; split; [now left|now apply nullable_ok]|]. intros S r' (y & [E|I] & _); [injection E as -> _; lia|].
    inversion S as [|? ? _ F]; subst. rewrite Forall_forall in F. apply (F _ I).
  - destruct (first_nullable l) as [r0|].
    + destruct IH as [(y & I & M) MIN]. split; [exists y; split; [now right|exact M]|]. intros S r' (z & [E|IZ] & MZ).
      * injection E as -> ->. apply nullable_ok in MZ. congruence.
      * inversion S; subst. apply MIN; [assumption|]. exists z. auto.
    + intros r' (z & [E|IZ] & MZ); [injection E as -> ->; apply nullable_ok in MZ; congruence|]. apply (IH r'). exists z. auto.
Qed.
(** The best match inside [rest]: longest, then first. *)
Definition best (l : rules) (rest : bytes) (r : Z) (n : nat) : Prop :=
  (n <= List.length rest)%nat /\ matched l r (firstn n rest) /\
  forall r' m, (m <= List.length rest)%nat -> matched l r' (firstn m rest) -> (m <= n)%nat /\ (m = n -> r <= r').
Lemma scan_ok rest : forall l pos last, sorted l ->
  (exists r n, scan l rest pos last = Some (r, (pos + n)%nat) /\ best l rest r n) \/
  (scan l rest pos last = last /\ forall r m, (m <= List.length rest)%nat -> ~ matched l r (firstn m rest)).
Proof.
  induction rest as [|c rest IH]; intros l pos last SO; cbn [scan].
  - unfold better. pose proof (first_nullable_ok l) as F. destruct (first_nullable l) as [r|].
    + destruct F as [F G]. left. exists r, 0%nat. split; [now rewrite Nat.add_0_r|]. split; [cbn; lia|]. split; [exact F|].
      intros r' m M MM. cbn in M. assert (m = 0%nat) by lia. subst m. split; [lia|]. intros _. auto.
    + right. split; [reflexivity|]. intros r m M. cbn in M. assert (m = 0%nat) by lia. subst m. apply F.
  - assert (DEAD : steps c l = [] -> forall r m, (S m <= List.length (c :: rest))%nat -> ~ matched l r (firstn (S m) (c :: rest))).
    { intros E r m _ MM. cbn [firstn] in MM. apply steps_ok in MM. rewrite E in MM. destruct MM as (x & [] & _). }
    assert (STOP : steps c l = [] -> (exists r n, better l pos last = Some (r, (pos + n)%nat) /\ best l (c :: rest) r n) \/
      (better l pos last = last /\ forall r m, (m <= List.length (c :: rest))%nat -> ~ matched l r (firstn m (c :: rest)))).
    { intro E. specialize (DEAD E). unfold better. pose proof (first_nullable_ok l) as F. destruct (first_nullable l) as [r|].
      - destruct F as [F G]. left. exists r, 0%nat. split; [now rewrite Nat.add_0_r|]. split; [lia|]. split; [exact F|].
        intros r' [|m] M MM; [|exfalso; exact (DEAD _ _ M MM)]. split; [lia|]. intros _. auto.
      - right. split; [reflexivity|]. intros r [|m] M; [apply F|apply DEAD; exact M]. }
    destruct (steps c l) as [|p l'] eqn:E; [apply STOP; reflexivity|]. rewrite <- E in *. clear STOP.
    destruct (IH (steps c l) (S pos) (better l pos last) (@steps_sorted c l SO)) as [(r & n & EQ & B)|[EQ NO]].
    + left. exists r, (S n). split; [rewrite EQ; f_equal; f_equal; lia|]. destruct B as (B1 & B2 & B3). split; [cbn [List.length]; lia|].
      split; [cbn [firstn]; now apply steps_ok|]. intros r' [|m] M MM; [split; lia|]. cbn [firstn] in MM. apply steps_ok in MM.
      destruct (B3 r' m) as [B4 B5]; [cbn [List.length] in M; lia|exact MM|]. split; [lia|]. intro Q. apply B5. lia.
    + rewrite EQ. assert (NO' : forall r m, (S m <= List.length (c :: rest))%nat -> ~ matched l r (firstn (S m) (c :: rest))).
      { intros r m M MM. cbn [firstn List.length] in *. apply steps_ok in MM. apply (NO r m); [lia|exact MM]. }
      unfold better. pose proof (first_nullable_ok l) as F. destruct (first_nullable l) as [r|].
      * destruct F as [F G]. left. exists r, 0%nat. split; [now rewrite Nat.add_0_r|]. split; [lia|]. split; [exact F|].
        intros r' [|m] M MM; [|exfalso; exact (NO' _ _ M MM)]. split; [lia|]. intros _. auto.
      * right. split; [reflexivity|]. intros r [|m] M; [apply F|apply NO'; exact M].
Qed.

(** ** The rules applying in a start condition (1 = INITIAL, 3 = singlequotedstring, 5 = COMMENT) *)
Definition applies (start : Z) (w : where_) : bool :=
  match w with Normal => (start =? 1) || (start =? 5) | CommentOnly => start =? 5 | StringOnly => start =? 3 end.
Definition active (start : Z) : rules := map (fun p => (fst p, snd (snd p))) (filter (fun p => applies start (fst (snd p))) flex_rules).

(** ** The certificate *)
Definition byte (z : Z) : ascii := ascii_of_N (Z.to_N z).
Definition resid_list : list (Z * rules) := Eval vm_compute in
  map (fun p => (fst p, fold_left (fun l z => steps (byte z) l) (snd (snd p)) (active (fst (snd p))))) access.
Definition resid_trie : trie rules := Eval vm_compute in fold_right (fun p t => tset t (tidx (fst p)) (snd p)) TNil resid_list.
Definition resid (s : Z) : option rules := tget resid_trie (tidx s).

Definition range_eqb (a b : Z * Z) : bool := (fst a =? fst b) && (snd a =? snd b).
Fixpoint list_eqb {A} (eqb : A -> A -> bool) (a b : list A) : bool :=
  match a, b with [], [] => true | x :: a', y :: b' => eqb x y && list_eqb eqb a' b' | _, _ => false end.
Fixpoint rx_eqb (a b : rx) : bool :=
  match a, b with
  | Nothing, Nothing | Eps, Eps => true
  | Cls n l, Cls m k => Bool.eqb n m && list_eqb range_eqb l k
  | Cat a1 a2, Cat b1 b2 | Alt a1 a2, Alt b1 b2 => rx_eqb a1 b1 && rx_eqb a2 b2
  | Star a1, Star b1 => rx_eqb a1 b1
  | _, _ => false
  end.
Definition rule_eqb (a b : Z * rx) : bool := (fst a =? fst b) && rx_eqb (snd a) (snd b).
Definition rules_eqb : rules -> rules -> bool := list_eqb rule_eqb.
Lemma list_eqb_ok A (eqb : A -> A -> bool) (H : forall x y, eqb x y = true -> x = y) a : forall b, list_eqb eqb a b = true -> a = b.
Proof.
  induction a as [|x a IH]; intros [|y b] E; cbn in E; try discriminate; [reflexivity|]. apply andb_prop in E as [E1 E2]. f_equal; auto.
Qed.
Lemma rx_eqb_ok a : forall b, rx_eqb a b = true -> a = b.
Proof.
  induction a; intros [] E; cbn in E; try discriminate; try reflexivity.
  - apply andb_prop in E as [E1 E2]. apply eqb_prop in E1. f_equal; [exact E1|]. apply list_eqb_ok in E2; [exact E2|].
    intros [] [] E. unfold range_eqb in E. cbn in E. f_equal; lia.
  - apply andb_prop in E as [E1 E2]. f_equal; auto.
  - apply andb_prop in E as [E1 E2]. f_equal; auto.
  - f_equal. auto.
Qed.
Lemma rules_eqb_ok a b : rules_eqb a b = true -> a = b.
Proof.
  apply list_eqb_ok. intros [r x] [r' y] E. unfold rule_eqb in E. cbn in E. apply andb_prop in E as [E1 E2]. apply rx_eqb_ok in E2. f_equal; [lia|exact E2].
Qed.
Definition opt_eqb (a b : option Z) : bool := match a, b with Some x, Some y => x =? y | None, None => true | _, _ => false end.
Definition EOB : Z := 7.
(** What is checked for every state: successors agree with derivatives, the accepted rule is the first nullable one, and the
    end-of-buffer character leads to the end-of-buffer state. *)
Definition byte_ok (s : Z) (l : rules) (z : Z) : bool :=
  match get yy_ec z with
  | None => false
  | Some c =>
    match yy_next s c with
    | None => false
    | Some t => if t =? YY_JAM then match steps (byte z) l with [] => true | _ => false end
                else match resid t with Some l' => rules_eqb (steps (byte z) l) l' && match l' with [] => false | _ => true end | None => false end
    end
  end.
Definition lex_state_ok (s : Z) (l : rules) : bool :=
  forallb (byte_ok s l) (zrange 255 1) &&
  match get yy_accept s with
  | Some a => opt_eqb (if a =? 0 then None else Some a) (first_nullable l) && (0 <=? a) && (a <=? 189)
  | None => false
  end &&
  match get yy_ec 0 with Some c => opt_eqb (yy_next s c) (Some EOB) | None => false end.
Lemma lex_states_ok : forallb (fun p => lex_state_ok (fst p) (snd p)) resid_list = true.
Proof. vm_cast_no_check (eq_refl true). Qed.
