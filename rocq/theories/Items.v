(** Validation of the certificate of ItemCert.v (LALR(1) items) against grammar, tables and precedences.  No code of /repo. *)
From Verif Require Export Base BisonTables TokenCodes GrammarDef LexModel ParseModel TableCheck Grammar Prec ItemCert Abs.
From Coq Require Import ZifyBool ZifyNat ZifyN.
Local Open Scope N_scope.
Set Implicit Arguments.
Unset Strict Implicit.

(** ** Access *)
Definition la_trie : trie N := Eval vm_compute in tof la_list 1 TNil.
Definition la_of (i : N) : N := match tget la_trie (tidx (Z.of_N i)) with Some x => x | None => 0 end.
Definition items_trie : trie (list (N * N * N)) := Eval vm_compute in tof item_list 1 TNil.
Definition items (s : Z) : list (N * N * N) := if (0 <=? s)%Z && (s <? 656)%Z then match tget items_trie (tidx s) with Some l => l | None => [] end else [].
Definition item (s : Z) (r : N) (d : nat) : option N :=
  match find (fun x => N.eqb (fst (fst x)) r && N.eqb (snd (fst x)) (N.of_nat d)) (items s) with
  | Some (_, _, i) => Some (la_of i)
  | None => None
  end.
Definition first_trie : trie (N * bool) := Eval vm_compute in tof first_list 1 TNil.
Definition fst_of (X : N) : N := if terminal X then N.setbit 0 X else match tget first_trie (tidx (Z.of_N (X - 199))) with Some (f, _) => f | None => 0 end.
Definition null (X : N) : bool := if terminal X then false else match tget first_trie (tidx (Z.of_N (X - 199))) with Some (_, n) => n | None => false end.
Fixpoint seq_first (Xs : list N) (L : N) : N :=
  match Xs with [] => L | X :: Xs' => if null X then N.lor (fst_of X) (seq_first Xs' L) else fst_of X end.
Definition subset (a b : N) : bool := N.eqb (N.land a b) a.
Lemma subset_bit a b x : subset a b = true -> N.testbit a x = true -> N.testbit b x = true.
Proof. unfold subset. intros E H. apply N.eqb_eq in E. rewrite <- E, N.land_spec in H. now apply andb_true_iff in H. Qed.

Lemma production_mem r lhs rhs : production r = Some (lhs, rhs) -> In (r, (lhs, rhs)) grammar.
Proof.
  unfold production. destruct (find _ grammar) as [[r1 y]|] eqn:F; [|discriminate]. intro E. injection E as ->.
  apply find_some in F as [I E]. cbn [fst] in E. now apply N.eqb_eq in E as ->.
Qed.

(** ** FIRST sets *)
Definition first_check (p : N * (N * list N)) : bool :=
  let lhs := fst (snd p) in let rhs := snd (snd p) in
  negb (terminal lhs) && subset (seq_first rhs 0) (fst_of lhs) && (negb (forallb null rhs) || null lhs).
Lemma first_ok : forallb first_check grammar = true.
Proof. vm_compute. reflexivity. Qed.
Lemma first_rule r lhs rhs : production r = Some (lhs, rhs) -> terminal lhs = false /\ subset (seq_first rhs 0) (fst_of lhs) = true /\ (forallb null rhs = true -> null lhs = true).
Proof.
  intro P. pose proof (proj1 (forallb_forall _ _) first_ok _ (production_mem P)) as A. unfold first_check in A. cbn [fst snd] in A.
  apply andb_true_iff in A as [A A3]. apply andb_true_iff in A as [A1 A2]. apply negb_true_iff in A1. split; [exact A1|]. split; [exact A2|].
  intro F. rewrite F in A3. exact A3.
Qed.
Lemma sym_terminal t : terminal (sym_of t) = true.
Proof.
  unfold terminal, sym_of, sym_of_code. destruct (Z.leb_spec (t_code t) 0); [reflexivity|]. destruct (@yytranslate_range (t_code t) ltac:(lia)) as (y & -> & R & _). lia.
Qed.
Lemma seq_first_spec Xs L a : N.testbit (seq_first Xs L) a = N.testbit (seq_first Xs 0) a || forallb null Xs && N.testbit L a.
Proof.
  induction Xs as [|X Xs IH]; cbn [seq_first forallb]; [now rewrite N.bits_0|]. destruct (null X); cbn [andb]; [|now rewrite orb_false_r].
  rewrite !N.lor_spec, IH. now rewrite orb_assoc.
Qed.
Lemma derives_first X t : derives X t -> (yield t = [] -> null X = true) /\ (forall k l, yield t = k :: l -> N.testbit (fst_of X) (sym_of k) = true).
Proof.
  refine (@derives_mind (fun X t _ => (yield t = [] -> null X = true) /\ (forall k l, yield t = k :: l -> N.testbit (fst_of X) (sym_of k) = true))
    (fun Xs ts _ => (yields ts = [] -> forallb null Xs = true) /\ (forall k l, yields ts = k :: l -> N.testbit (seq_first Xs 0) (sym_of k) = true)) _ _ _ _ X t).
  - intro k. split; [discriminate|]. intros k' l E. injection E as -> <-. unfold fst_of. rewrite sym_terminal. apply N.setbit_eq.
  - intros r lhs rhs ts P _ [A B]. destruct (first_rule P) as (T & S & Nl). split; [intro E; apply Nl, A; exact E|]. intros k l E. eapply subset_bit; [exact S|]. eapply B. exact E.
  - split; [reflexivity|discriminate].
  - intros Y Ys u us _ [A1 A2] _ [B1 B2]. cbn [yields flat_map forallb seq_first]. fold (yields us). split.
    + intro E. apply app_eq_nil in E as [E1 E2]. now rewrite A1, B1.
    + intros k l E. destruct (yield u) as [|k' l'] eqn:EU.
      * rewrite A1 by reflexivity. rewrite N.lor_spec. cbn [app] in E. now rewrite (B2 _ _ E), orb_true_r.
      * cbn [app] in E. injection E as <- <-. pose proof (A2 _ _ eq_refl) as F. destruct (null Y); [now rewrite N.lor_spec, F|exact F].
Qed.
Lemma derives_list_first Xs ts L nx : derives_list Xs ts -> N.testbit L nx = true -> N.testbit (seq_first Xs L) (first_of ts nx) = true.
Proof.
  intros D H. revert Xs D. induction ts as [|u us IH]; intros Xs D; inversion D as [|Y Ys ? ? D1 D2]; subst; [exact H|].
  specialize (IH _ D2). destruct (derives_first D1) as [A B]. cbn [seq_first]. unfold first_of in *. cbn [yields flat_map]. fold (yields us). destruct (yield u) as [|k l] eqn:E.
  - rewrite A by reflexivity. cbn [app]. rewrite N.lor_spec, IH. apply orb_true_r.
  - cbn [app]. pose proof (B _ _ eq_refl) as F. destruct (null Y); [now rewrite N.lor_spec, F|exact F].
Qed.

(** ** The items *)
Definition prods (X : N) : list N := map fst (filter (fun p => N.eqb (fst (snd p)) X) grammar).
Lemma prods_In r X rhs : production r = Some (X, rhs) -> In r (prods X).
Proof. intro P. unfold prods. apply in_map_iff. exists (r, (X, rhs)). split; [reflexivity|]. apply filter_In. split; [exact (production_mem P)|]. cbn. apply N.eqb_refl. Qed.
(** In state [s] token [a] leads to a state with item [r, d'] and at least the lookaheads [L]. *)
Definition has_item (s' : Z) (r : N) (d' : nat) (L : N) : bool := match item s' r d' with Some L' => subset L L' | None => false end.
Definition shift_to (s : Z) (a r : N) (d' : nat) (L : N) : bool :=
  negb (s =? YYFINAL)%Z && match decide s (Some (Z.of_N a)) with Some (DShift s') => has_item s' r d' L | _ => false end.
Definition goto_to (s : Z) (A r : N) (d' : nat) (L : N) : bool :=
  match goto_of s (Z.of_N A) with Some g => has_item g r d' L | None => false end.
Definition end_ok (s : Z) (r L : N) : bool :=
  negb (s =? YYFINAL)%Z &&
  forallb (fun a => negb (N.testbit L (Z.to_N a)) || match decide s (Some a) with Some (DReduce r') => (r' =? Z.of_N r)%Z | _ => negb (may_end r (Z.to_N a)) end) all_tokens.
(** Second symbol [a] of a production [r] begun in [s]: it can be shifted, or all productions in progress in [s] forbid it. *)
Definition second_ok (s : Z) (X a r : N) (L : N) : bool :=
  match (if terminal X then match decide s (Some (Z.of_N X)) with Some (DShift s1) => Some s1 | _ => None end else goto_of s (Z.of_N X)) with
  | Some s1 =>
    shift_to s1 a r 2 L ||
    negb (s =? 0)%Z && forallb (fun x => (snd (fst x) =? 0) || (match production (fst (fst x)) with Some (_, rhs) => snd (fst x) + 1 =? N.of_nat (List.length rhs) | None => false end && negb (may_extend (fst (fst x)) a))) (items s)
  | None => false
  end.
Definition item_ok (s : Z) (x : N * N * N) : bool :=
  let '(r, d, i) := x in
  let L := la_of i in let d := N.to_nat d in
  match production r with
  | None => false
  | Some (lhs, rhs) =>
    match skipn d rhs with
    | [] => Nat.eqb d (List.length rhs) && ((r =? 1) || end_ok s r L)
    | X :: rest =>
      (if terminal X then Nat.eqb d 1 || shift_to s X r (S d) L
       else goto_to s X r (S d) L && forallb (fun q => negb (q =? 1) && has_item s q 0 (seq_first rest L)) (prods X)) &&
      match d, rest with O, a :: _ => negb (terminal a) || second_ok s X a r L | _, _ => true end
    end
  end.
Definition state_items_ok (s : Z) : bool := forallb (item_ok s) (items s).
Lemma items_checked : forallb state_items_ok all_states = true.
Proof. vm_cast_no_check (eq_refl true). Qed.

(** ** What the check says *)
Lemma item_In s r d L : item s r d = Some L -> exists i, In (r, N.of_nat d, i) (items s) /\ L = la_of i.
Proof.
  unfold item. destruct (find _ _) as [[[r' d'] i]|] eqn:F; [|discriminate]. intro E. injection E as <-. apply find_some in F as [I F]. cbn [fst snd] in F.
  apply andb_true_iff in F as [F1 F2]. apply N.eqb_eq in F1, F2. subst. eauto.
Qed.
Lemma items_ok s x : In x (items s) -> item_ok s x = true.
Proof.
  intro I. assert (R : In s all_states). { apply zrange_In. unfold items in I. destruct (Z.leb_spec 0 s), (Z.ltb_spec s 656); cbn [andb] in I; try destruct I. all: lia. }
  pose proof (proj1 (forallb_forall state_items_ok all_states) items_checked s R) as A. clear R. unfold state_items_ok in A. exact (proj1 (forallb_forall (item_ok s) (items s)) A x I).
Qed.
Lemma has_item_spec s r d L : has_item s r d L = true -> exists L', item s r d = Some L' /\ forall a, N.testbit L a = true -> N.testbit L' a = true.
Proof. unfold has_item. destruct (item s r d) as [L'|]; [|discriminate]. intro S. exists L'. split; [reflexivity|]. intros a. now apply subset_bit. Qed.
Lemma shift_to_spec s a r d L : shift_to s a r d L = true ->
  s <> YYFINAL /\ exists s' L', decide s (Some (Z.of_N a)) = Some (DShift s') /\ item s' r d = Some L' /\ forall a, N.testbit L a = true -> N.testbit L' a = true.
Proof.
  unfold shift_to. intro H. apply andb_true_iff in H as [F H]. split; [lia|]. destruct (decide s _) as [[|s'| |]|]; try discriminate. destruct (has_item_spec H) as (L' & E & S). eauto.
Qed.
Lemma goto_to_spec s A r d L : goto_to s A r d L = true -> exists g L', goto_of s (Z.of_N A) = Some g /\ item g r d = Some L' /\ forall a, N.testbit L a = true -> N.testbit L' a = true.
Proof. unfold goto_to. destruct (goto_of s _) as [g|]; [|discriminate]. intro H. destruct (has_item_spec H) as (L' & E & S). eauto. Qed.
Section Item.
Variables (s : Z) (r : N) (d : nat) (L lhs : N) (rhs : list N).
Hypothesis I : item s r d = Some L.
Hypothesis P : production r = Some (lhs, rhs).
(** A finished production is reduced unless precedence forbids it. *)
Lemma item_end nx : skipn d rhs = [] -> r <> 1 -> N.testbit L nx = true -> nx < 199 -> may_end r nx = true ->
  d = List.length rhs /\ s <> YYFINAL /\ decide s (Some (Z.of_N nx)) = Some (DReduce (Z.of_N r)).
Proof.
  intros E R T B M. destruct (item_In I) as (i & In0 & ->). pose proof (items_ok In0) as A. cbn [item_ok] in A. rewrite P, Nat2N.id, E in A.
  apply andb_true_iff in A as [A1 A]. apply Nat.eqb_eq in A1. split; [exact A1|]. destruct (N.eqb_spec r 1); [contradiction|]. cbn [orb] in A. unfold end_ok in A.
  apply andb_true_iff in A as [A2 A]. split; [lia|]. rewrite forallb_forall in A. specialize (A (Z.of_N nx)). rewrite N2Z.id, T, M in A. cbn [negb orb] in A.
  assert (Q : In (Z.of_N nx) all_tokens) by (apply zrange_In; lia). specialize (A Q). clear Q. destruct (decide s _) as [[| |r'|]|]; try discriminate A.
  do 2 f_equal. lia.
Qed.
(** A terminal after the dot can be shifted (second symbols: see [item_second]). *)
Lemma item_shift a rest : skipn d rhs = a :: rest -> terminal a = true -> d <> 1%nat -> shift_to s a r (S d) L = true.
Proof.
  intros E T D. destruct (item_In I) as (i & In0 & ->). pose proof (items_ok In0) as A. cbn [item_ok] in A. rewrite P, Nat2N.id, E, T in A.
  apply andb_true_iff in A as [A _]. apply orb_true_iff in A as [A|A]; [apply Nat.eqb_eq in A; contradiction|exact A].
Qed.
Lemma item_goto A rest : skipn d rhs = A :: rest -> terminal A = false -> goto_to s A r (S d) L = true.
Proof.
  intros E T. destruct (item_In I) as (i & In0 & ->). pose proof (items_ok In0) as H. cbn [item_ok] in H. rewrite P, Nat2N.id, E, T in H.
  apply andb_true_iff in H as [H _]. now apply andb_true_iff in H.
Qed.
(** Productions of a nonterminal after the dot are begun. *)
Lemma item_close A rest q rhs' : skipn d rhs = A :: rest -> production q = Some (A, rhs') -> q <> 1 /\ exists L', item s q 0 = Some L' /\ forall a, N.testbit (seq_first rest L) a = true -> N.testbit L' a = true.
Proof.
  intros E Q. destruct (item_In I) as (i & In0 & ->). pose proof (items_ok In0) as H. cbn [item_ok] in H. rewrite P, Nat2N.id, E in H. destruct (first_rule Q) as (T & _). rewrite T in H.
  apply andb_true_iff in H as [H _]. apply andb_true_iff in H as [_ H]. rewrite forallb_forall in H. specialize (H _ (prods_In Q)). apply andb_true_iff in H as [H1 H2].
  split; [intros ->; discriminate|]. apply has_item_spec. exact H2.
Qed.
End Item.
(** The second symbol. *)
Lemma item_second s r L lhs X a rest : item s r 0 = Some L -> production r = Some (lhs, X :: a :: rest) -> terminal a = true -> second_ok s X a r L = true.
Proof.
  intros I P T. destruct (item_In I) as (i & In0 & ->). pose proof (items_ok In0) as A. cbn [item_ok] in A. rewrite P in A. cbn [N.of_nat N.to_nat skipn] in A.
  apply andb_true_iff in A as [_ A]. rewrite T in A. exact A.
Qed.
