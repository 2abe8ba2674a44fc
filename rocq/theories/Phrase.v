(** Building derivation trees bottom-up together with their tokens, meaning, precedence level and stack use.  No code of /repo. *)
From Verif Require Export Spell.
From Coq Require Import ZifyBool ZifyNat ZifyN.
Local Open Scope nat_scope.
Set Implicit Arguments.
Unset Strict Implicit.

Definition toks := list (Z * tokval).
(** Binding strength of the operator productions: OR, AND, (IN, BETWEEN: 3), NOT, equality and LIKE, comparison, (IS NULL: 7),
    additive (also the unary minus), multiplicative, power, concatenation; 12: everything that is closed. *)
Definition strength (r : N) : nat :=
  match r with
  | 218%N => 1 | 217%N => 2 | 202%N => 4 | 213%N | 214%N | 215%N | 231%N | 232%N | 233%N => 5 | 234%N | 235%N | 236%N | 237%N => 6 | 201%N | 207%N | 208%N => 8 | 209%N | 210%N | 211%N => 9 | 212%N => 10 | 216%N => 11
  | _ => 12
  end.
(** Every operator of strength [L] or more is complete in front of the token [nx]. *)
Definition ends (L : nat) (nx : N) : bool := forallb (fun r => (strength r <? L) || may_end r nx) operators.
(** Strength on the right: NOT associates to the right. *)
Definition extent (r : N) : nat := if N.eqb r 202 then 3 else strength r.
(** The token [x] continues the last operand of every operator weaker than [L]. *)
Definition edge (L : nat) (x : N) : bool := forallb (fun r => (L <=? extent r) || may_extend r x) operators.
Lemma ends_mono L L' nx : L <= L' -> ends L nx = true -> ends L' nx = true.
Proof. intros LE E. unfold ends in *. rewrite forallb_forall in *. intros r I. specialize (E r I). destruct (may_end r nx); [lia|]. rewrite orb_false_r in *. lia. Qed.
Lemma edge_mono L L' x : L' <= L -> edge L x = true -> edge L' x = true.
Proof. intros LE E. unfold edge in *. rewrite forallb_forall in *. intros r I. specialize (E r I). destruct (may_extend r x); [lia|]. rewrite orb_false_r in *. lia. Qed.
Lemma ends_12 nx : ends 12 nx = true.
Proof. unfold ends. cbn [operators forallb strength]. reflexivity. Qed.
Lemma op_In r : is_operator r = true -> In r operators.
Proof. unfold is_operator. rewrite existsb_exists. intros (x & I & E). apply N.eqb_eq in E. now subst x. Qed.
Lemma may_end_ends r L nx : ends L nx = true -> L <= strength r -> may_end r nx = true.
Proof.
  intros E LE. destruct (is_operator r) eqn:O; [|unfold may_end; rewrite O; reflexivity]. apply op_In in O. unfold ends in E. rewrite forallb_forall in E. specialize (E r O).
  destruct (may_end r nx); [reflexivity|]. rewrite orb_false_r in E. lia.
Qed.
Lemma may_extend_edge r L x : edge L x = true -> (is_operator r = true -> extent r < L) -> may_extend r x = true.
Proof.
  intros E LT. destruct (is_operator r) eqn:O; [|unfold may_extend; rewrite O; reflexivity]. specialize (LT eq_refl). apply op_In in O. unfold edge in E. rewrite forallb_forall in E. specialize (E r O).
  destruct (may_extend r x); [reflexivity|]. rewrite orb_false_r in E. lia.
Qed.

(** [phrase X l k v k' L m t]: [t] derives [l] from [X]; with [k] parameters before it it denotes [v] and there are [k'] parameters
    then; it respects the precedences in front of any token that ends [L]; the operators on its left edge are of level [D] or more; it needs at
    most [m] stack entries. *)
Record phrase (X : N) (l : toks) (k : nat) (v : val) (k' : nat) (L D m : nat) (t : tree) : Prop := {
  ph_derives : derives X t;
  ph_toks : map core (yield t) = l;
  ph_sem : sem t k = Some (v, k');
  ph_respects : forall nx, ends L nx = true -> respects t nx = true;
  ph_edge : forallb (edge D) (left_edge t) = true;
  ph_need : need t <= m }.
Definition next_sym (l : toks) (nx : N) : N := match l with [] => nx | (c, _) :: _ => sym_of_code c end.
Lemma first_of_next ts nx l : map core (yields ts) = l -> first_of ts nx = next_sym l nx.
Proof. unfold first_of, next_sym. intros <-. destruct (yields ts) as [|k ?]; reflexivity. Qed.
(** Sequences. [i]: index of the first element. *)
Inductive phrases (L : nat) : list N -> toks -> nat -> list val -> nat -> nat -> nat -> list tree -> Prop :=
| ps_nil : forall k i, phrases L [] [] k [] k i 1 []
| ps_cons : forall X Xs l l' k v k1 vs k' i m m' t ts Lt Dt, phrase X l k v k1 Lt Dt m t -> phrases L Xs l' k1 vs k' (S i) m' ts ->
    match l' with [] => L <= Lt | (c, _) :: _ => ends Lt (sym_of_code c) = true end ->
    phrases L (X :: Xs) (l ++ l') k (v :: vs) k' i (Nat.max (i + m) m') (t :: ts).
Lemma phrases_ok L Xs l k vs k' i m ts : phrases L Xs l k vs k' i m ts ->
  derives_list Xs ts /\ map core (yields ts) = l /\ sems ts k = Some (vs, k') /\ (forall nx, ends L nx = true -> respects_all ts nx = true) /\ need_all ts i <= m.
Proof.
  induction 1 as [k i|X Xs l l' k v k1 vs k' i m m' t ts Lt Dt [D T S R E N] PS (A1 & A2 & A3 & A4 & A5) C].
  - split; [constructor|]. split; [reflexivity|]. split; [reflexivity|]. split; [reflexivity|cbn; lia].
  - split; [constructor; assumption|]. split; [unfold yields in *; cbn [flat_map]; rewrite map_app; congruence|]. split; [cbn [sems]; rewrite S, A3; reflexivity|]. split.
    + intros nx EN. cbn [respects_all]. rewrite (A4 nx EN), andb_true_r. apply R. rewrite (@first_of_next ts nx l' A2). destruct l' as [|[c w] l']; cbn [next_sym]; [eapply ends_mono; eassumption|exact C].
    + cbn [need_all]. lia.
Qed.
Definition first_edge (l : toks) : list N := match l with (c, _) :: _ => [sym_of_code c] | [] => [] end.
(** A production: [L] is its level. *)
Lemma phrase_node r X rhs l k vs k1 m ts v L D : production r = Some (X, rhs) -> phrases L rhs l k vs k1 0 m ts -> asem r k1 vs = Some v -> r <> 298%N ->
  L <= strength r -> tail_ok r ts = true -> forallb (edge D) (left_edge (Node r ts)) = true -> phrase X l k v k1 L D m (Node r ts).
Proof.
  intros P PS A N298 LS TO ED. destruct (phrases_ok PS) as (A1 & A2 & A3 & A4 & A5). constructor.
  - econstructor; eassumption.
  - exact A2.
  - rewrite sem_node, A3, A. now replace (N.eqb r 298) with false by lia.
  - intros nx EN. rewrite respects_node, TO, (A4 nx EN), (may_end_ends EN LS). reflexivity.
  - exact ED.
  - rewrite need_node. exact A5.
Qed.
Definition mk (c : Z * tokval) : token := mkTok (fst c) (snd c) pos0 0.
Lemma core_mk c : core (mk c) = c. Proof. destruct c. reflexivity. Qed.
Definition tok_val (v : tokval) : val := match v with TVNone => VUninit | TVStr s => VStr 0 s | TVInt z => VInt z | TVFlt f => VFlt f end.
Lemma phrase_leaf c k : phrase (sym_of_code (fst c)) [c] k (tok_val (snd c)) k 12 12 1 (Leaf (mk c)).
Proof.
  constructor; auto.
  - change (sym_of_code (fst c)) with (sym_of (mk c)). constructor.
  - cbn [yield map]. now rewrite core_mk.
Qed.
Lemma phrase_sym X c k : X = sym_of_code (fst c) -> phrase X [c] k (tok_val (snd c)) k 12 12 1 (Leaf (mk c)).
Proof. intros ->. apply phrase_leaf. Qed.
Lemma phrase_weaken X l k v k' L D L' D' m m' t : phrase X l k v k' L D m t -> L' <= L -> D' <= D -> m <= m' -> phrase X l k v k' L' D' m' t.
Proof.
  intros [A B C R E F] LL DD MM. constructor; auto; [|rewrite forallb_forall in *; intros x I; eapply edge_mono; [exact DD|]; auto|lia].
  intros nx EN. apply R. eapply ends_mono; eassumption.
Qed.
(** The left edge of a phrase is that of its first symbol and its second token. *)
Lemma left_edge_node r u us L : forallb (edge L) (left_edge u) = true -> match us with Leaf k :: _ => edge L (sym_of k) = true | _ => True end -> forallb (edge L) (left_edge (Node r (u :: us))) = true.
Proof. intros A B. cbn [left_edge]. rewrite forallb_app, A, andb_true_r. destruct us as [|[k|] us]; [reflexivity| |reflexivity]. cbn [forallb]. now rewrite B. Qed.
(** Whole inputs, with or without a semicolon at the end. *)
Definition semicolon (b : bool) : toks := if b then [(59, TVNone)]%Z else [].
Theorem phrase_input stmts b l n m L D t text : phrase S_statement_list stmts 0 (VVec 0 l) n L D m t -> ends L S_semi = true -> ends L 0 = true -> m <= 198 -> spells (stmts ++ semicolon b) text ->
  exists ts, tokens text ts /\ means ts l n.
Proof.
  intros [A1 B1 C1 D1 E1 F1] SE S1 M1 SP. set (t2 := if b then Node 354 [Leaf (mk (59%Z, TVNone))] else Node 355 []).
  assert (W : derives S_opt_semicolon t2 /\ map core (yield t2) = semicolon b /\ respects t2 0 = true /\ need t2 = 1).
  { unfold t2. destruct b; (split; [|repeat split]).
    - apply (@wf_derives (Node 354 [Leaf (mk (59%Z, TVNone))])). vm_compute. reflexivity.
    - apply (@wf_derives (Node 355 [])). vm_compute. reflexivity. }
  destruct W as (A2 & B2 & D2 & F2). destruct (spells_tokens SP) as (ts & T & ET). exists ts. split; [exact T|].
  apply means_core with (ts := yield (Node 2 [t; t2]) ++ [mk (0%Z, TVNone)]).
  { rewrite ET, map_app. cbn [yield flat_map]. rewrite app_nil_r, map_app, B1, B2. reflexivity. }
  exists t, t2, (mk (0%Z, TVNone)). split; [|exact C1]. unfold parses_as.
  split; [econstructor; [apply production_2|]; repeat (constructor; try eassumption)|]. split; [reflexivity|]. split; [reflexivity|]. split.
  - rewrite respects_node. replace (may_end 2 0) with true by reflexivity. replace (tail_ok 2 [t; t2]) with true; [|symmetry; unfold tail_ok; cbn [rev app]; apply forallb_forall; intros; reflexivity].
    cbn [respects_all andb]. change (first_of [] 0) with 0%N. rewrite D2. rewrite !andb_true_r. apply D1. rewrite (@first_of_next [t2] 0%N (semicolon b)); [|unfold yields; cbn [flat_map]; rewrite app_nil_r; exact B2].
    destruct b; cbn [semicolon next_sym]; [exact SE|exact S1].
  - rewrite need_node. cbn [need_all]. lia.
Qed.
