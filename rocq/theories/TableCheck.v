(** Validation of the bison tables against the grammar: what the driver needs to know about decide/goto/error_shift.
    All facts are proved by evaluating boolean checkers over all 656 states and 199 tokens in the kernel. *)
From Verif Require Import Base BisonTables TokenCodes GrammarDef LexModel ParseModel Grammar ParserCert.
From Coq Require Import ZifyBool.
Open Scope Z_scope.
Set Implicit Arguments.
Unset Strict Implicit.

(** Lists indexed by a number. *)
Inductive trie (A : Type) := TNil | TNode (l : trie A) (v : option A) (r : trie A).
Arguments TNil {A}. Arguments TNode {A}.
Fixpoint tget {A} (t : trie A) (p : positive) : option A :=
  match t with TNil => None | TNode l v r => match p with xH => v | xO q => tget l q | xI q => tget r q end end.
Fixpoint tset {A} (t : trie A) (p : positive) (x : A) : trie A :=
  match p, t with
  | xH, TNil => TNode TNil (Some x) TNil
  | xH, TNode l _ r => TNode l (Some x) r
  | xO q, TNil => TNode (tset TNil q x) None TNil
  | xO q, TNode l v r => TNode (tset l q x) v r
  | xI q, TNil => TNode TNil None (tset TNil q x)
  | xI q, TNode l v r => TNode l v (tset r q x)
  end.
Fixpoint tof {A} (l : list A) (p : positive) (t : trie A) : trie A :=
  match l with [] => t | x :: l' => tof l' (Pos.succ p) (tset t p x) end.
Definition tidx (i : Z) : positive := match i with Zpos p => Pos.succ p | _ => xH end.

Definition preds_trie : trie (list Z) := Eval vm_compute in tof preds_list 1 TNil.
Definition preds (s : Z) : list Z := match tget preds_trie (tidx s) with Some l => l | None => [] end.
Definition weight_trie : trie Z := Eval vm_compute in tof weight_list 1 TNil.
Definition weight (X : N) : Z := match tget weight_trie (tidx (Z.of_N X)) with Some w => w | None => 0 end.
(** Symbol of a state. *)
Definition stos (s : Z) : N := match get yystos s with Some y => Z.to_N y | None => 0%N end.

Definition memZ (x : Z) (l : list Z) : bool := existsb (Z.eqb x) l.
Lemma memZ_In x l : memZ x l = true <-> In x l.
Proof.
  unfold memZ. rewrite existsb_exists. split.
  - intros (y & H & E). apply Z.eqb_eq in E. now subst.
  - intro H. exists x. split; [assumption | apply Z.eqb_refl].
Qed.
Fixpoint nubZ (l : list Z) : list Z :=
  match l with [] => [] | x :: l' => if memZ x l' then nubZ l' else x :: nubZ l' end.
Lemma nubZ_In x l : In x l -> In x (nubZ l).
Proof.
  induction l as [|y l IH]; simpl; [easy|]. intros [->|H].
  - destruct (memZ x l) eqn:E; [apply IH; now apply memZ_In | now left].
  - destruct (memZ y l); [auto | right; auto].
Qed.

(** Stacks of states (top first) whose neighbours are related by [preds]; the bottom is state 0. *)
Inductive path : list Z -> Prop :=
| path_0 : path [0]
| path_S : forall s b l, In b (preds s) -> s <> 0 -> path (b :: l) -> path (s :: b :: l).

(** Walking back from the states [S] over the symbols [Xs] (last symbol first). *)
Fixpoint back (Xs : list N) (S : list Z) : option (list Z) :=
  match Xs with
  | [] => Some S
  | X :: Xs' =>
    if forallb (fun s => N.eqb (stos s) X && negb (s =? 0)) S then back Xs' (nubZ (flat_map preds S)) else None
  end.
Lemma back_path Xs : forall S S' s stk, back Xs S = Some S' -> path (s :: stk) -> In s S ->
  exists b stk', skipn (List.length Xs) (s :: stk) = b :: stk' /\ In b S' /\ path (b :: stk') /\
                 map stos (firstn (List.length Xs) (s :: stk)) = Xs.
Proof.
  induction Xs as [|X Xs IH]; intros S S' s stk HB HP HI.
  - cbn [back] in HB. injection HB as <-. exists s, stk. cbn. auto.
  - cbn [back] in HB. destruct (forallb _ S) eqn:HF; [|discriminate].
    rewrite forallb_forall in HF. specialize (HF s HI). apply andb_prop in HF as [HX H0].
    apply N.eqb_eq in HX. inversion HP as [| ? b l HPr HN HP']; subst; [discriminate|].
    destruct (IH (nubZ (flat_map preds S)) S' b l HB HP') as (b' & stk' & E1 & E2 & E3 & E4).
    { apply nubZ_In, in_flat_map. exists s; auto. }
    exists b', stk'. cbn [List.length skipn firstn map]. repeat split; auto. now rewrite E4.
Qed.

(** Rule facts: yyr1/yyr2 agree with the grammar and the weights decrease. *)
Definition sum_weight (l : list N) : Z := fold_right (fun X a => weight X + a) 0 l.
Definition rule_ok (r : Z) : bool :=
  match production (Z.to_N r), get yyr1 r, get yyr2 r with
  | Some (lhs, rhs), Some l, Some n =>
    (l =? Z.of_N lhs) && (n =? Z.of_nat (List.length rhs)) && (2 <=? r) && (weight lhs + 1 <=? sum_weight rhs)
  | _, _, _ => false
  end.
(** A reduction by [r] in state [s]: the stack carries the right-hand side, the goto is a known transition. *)
Definition reduce_ok (s r : Z) : bool :=
  rule_ok r &&
  match production (Z.to_N r) with
  | Some (lhs, rhs) =>
    match back (rev rhs) [s] with
    | Some S0 => forallb (fun b => match goto_of b (Z.of_N lhs) with
                                   | Some g => memZ b (preds g) && N.eqb (stos g) lhs && negb (g =? 0)
                                   | None => false
                                   end) S0
    | None => false
    end
  | None => false
  end.
Definition shift_ok (s t s' : Z) : bool :=
  memZ s (preds s') && N.eqb (stos s') (Z.to_N t) && negb (s' =? 0).
(** Number of tokens and states. *)
Fixpoint zrange (n : nat) (from : Z) : list Z := match n with O => [] | S n' => from :: zrange n' (from + 1) end.
Lemma zrange_In n : forall from x, from <= x < from + Z.of_nat n -> In x (zrange n from).
Proof.
  induction n as [|n IH]; intros from x H; [lia|]. cbn [zrange]. destruct (Z.eq_dec from x); [now left|].
  right. apply IH. lia.
Qed.
Definition all_tokens : list Z := zrange 199 0.
Definition all_states : list Z := zrange 656 0.

(** The rules that may be reduced in [s]. *)
Definition decisions (s : Z) : list (Z * option decision) := map (fun t => (t, decide s (Some t))) all_tokens.
Definition reduces_of (s : Z) : list Z :=
  nubZ (flat_map (fun p => match snd p with Some (DReduce r) => [r] | _ => [] end)
                 ((0, decide s None) :: decisions s)).
Definition decision_ok (s : Z) (rs : list Z) (p : Z * option decision) : bool :=
  match snd p with
  | None | Some DRead => false
  | Some (DShift s') => shift_ok s (fst p) s'
  | Some (DReduce r) => memZ r rs
  | Some DError => true
  end.
Definition state_ok (s : Z) : bool :=
  let rs := reduces_of s in
  forallb (reduce_ok s) rs &&
  forallb (decision_ok s rs) (decisions s) &&
  match decide s None with
  | Some DRead => true
  | Some (DReduce r) => memZ r rs
  | Some DError | Some (DShift _) | None => false
  end &&
  match error_shift s with Some false => true | _ => false end &&
  match get yystos s with Some y => (0 <=? y) && (y <? 335) | None => false end &&
  forallb (fun b => (0 <=? b) && (b <? 656)) (preds s).
Lemma all_states_ok : forallb state_ok (filter (fun s => negb (s =? YYFINAL)) all_states) = true.
Proof. vm_compute. reflexivity. Qed.
