(** Scripts: the statements of a script do not depend on each other except that the parameters are counted through.  Specification of the renumbering, and that the
    value of a derivation (Sem.v) depends on the number of parameters before it by the renumbering only.  No code of /repo. *)
From Verif Require Import Base TokenCodes LexModel Ast Heap Actions ParseModel TableCheck Driver Grammar Sem Poke Inv.
From Coq Require Import ZifyBool ZifyNat ZifyN.
Local Open Scope nat_scope.
Set Implicit Arguments.
Unset Strict Implicit.

(** ** Specification: [ren d v] is the object tree [v] with [d] added to the index of every parameter (members ival and ival2 of the Expr objects of type kExprParameter). *)
Definition is_param (c : cls) (fs : list (fld * val)) : bool :=
  match c with CExpr => match lookup F_type fs with Some (VEnum EExprType 7) => true | _ => false end | _ => false end.
Definition raise (d : Z) (f : fld) (v : val) : val := match f, v with F_ival, VInt z => VInt (z + d) | F_ival2, VInt z => VInt (z + d) | _, _ => v end.
Fixpoint ren (d : Z) (v : val) : val :=
  match v with
  | VObj a c fs => VObj a c ((fix go l := match l with [] => [] | (f, y) :: l' => (f, if is_param c fs then raise d f (ren d y) else ren d y) :: go l' end) fs)
  | VVec a l => VVec a (map (ren d) l)
  | VRec fs => VRec ((fix go l := match l with [] => [] | (f, y) :: l' => (f, ren d y) :: go l' end) fs)
  | _ => v
  end.

(** ** Members *)
Definition renf (d : Z) (b : bool) (l : list (fld * val)) : list (fld * val) := map (fun p => (fst p, if b then raise d (fst p) (ren d (snd p)) else ren d (snd p))) l.
Lemma ren_obj d a c fs : ren d (VObj a c fs) = VObj a c (renf d (is_param c fs) fs).
Proof. cbn [ren]. f_equal. generalize (is_param c fs) as b. intro b. induction fs as [|[f y] fs IH]; [reflexivity|]. cbn [renf map fst snd]. f_equal. exact IH. Qed.
Lemma ren_rec d fs : ren d (VRec fs) = VRec (renf d false fs).
Proof. cbn [ren]. f_equal. induction fs as [|[f y] fs IH]; [reflexivity|]. cbn [renf map fst snd]. f_equal. exact IH. Qed.
Definition index (f : fld) : bool := match f with F_ival | F_ival2 => true | _ => false end.
Lemma raise_other d f v : index f = false -> raise d f v = v. Proof. destruct f; intro H; try discriminate H; reflexivity. Qed.
Lemma lookup_renf d b f fs : index f = false -> lookup f (renf d b fs) = option_map (ren d) (lookup f fs).
Proof.
  intro I. induction fs as [|[g y] fs IH]; [reflexivity|]. cbn [renf map fst snd lookup]. destruct (fld_beq f g) eqn:E; [|exact IH]. apply fld_beq_eq in E. subst g. cbn [option_map]. rewrite raise_other by exact I. now destruct b.
Qed.
Lemma fget_ren d f v : index f = false -> fget f (ren d v) = ren d (fget f v).
Proof.
  intro I. destruct v as [| | | | | | |a c fs| |fs]; try reflexivity; [rewrite ren_obj|rewrite ren_rec]; cbn [fget]; rewrite lookup_renf by exact I; destruct (lookup f fs); reflexivity.
Qed.
Definition fixed (f : fld) : bool := match f with F_ival | F_ival2 | F_type => true | _ => false end.
Lemma is_param_update c f x fs : fixed f = false -> is_param c (update f x fs) = is_param c fs.
Proof. intro I. unfold is_param. destruct c; try reflexivity. rewrite lookup_update. destruct f; try discriminate I; reflexivity. Qed.
Lemma renf_update d b f x fs : index f = false -> renf d b (update f x fs) = update f (ren d x) (renf d b fs).
Proof.
  intro I. induction fs as [|[g y] fs IH]; [reflexivity|]. cbn [renf map fst snd update]. destruct (fld_beq f g) eqn:E; cbn [map fst snd].
  - f_equal. f_equal. apply fld_beq_eq in E. subst g. rewrite raise_other by exact I. now destruct b.
  - f_equal. exact IH.
Qed.
Lemma is_param_upds c l : forall fs, forallb (fun p => negb (fixed (fst p))) l = true -> is_param c (upds l fs) = is_param c fs.
Proof. induction l as [|[f x] l IH]; intros fs H; [reflexivity|]. cbn [forallb fst] in H. apply andb_prop in H as [H1 H2]. apply negb_true_iff in H1. cbn [upds]. rewrite (IH _ H2). now apply is_param_update. Qed.
Lemma renf_upds d b l : forall fs, forallb (fun p => negb (fixed (fst p))) l = true -> renf d b (upds l fs) = upds (renf d false l) (renf d b fs).
Proof.
  induction l as [|[f x] l IH]; intros fs H; [reflexivity|]. cbn [forallb fst] in H. apply andb_prop in H as [H1 H2]. apply negb_true_iff in H1. cbn [upds]. rewrite (IH _ H2).
  change (renf d false ((f, x) :: l)) with ((f, ren d x) :: renf d false l). cbn [upds]. f_equal. apply renf_update. destruct f; try discriminate H1; reflexivity.
Qed.
Lemma ren_with d l v : forallb (fun p => negb (fixed (fst p))) l = true -> ren d (with_ l v) = with_ (renf d false l) (ren d v).
Proof. intro H. destruct v as [| | | | | | |a c fs| |]; try reflexivity. cbn [with_]. rewrite !ren_obj. cbn [with_]. f_equal. rewrite (is_param_upds _ _ H). apply renf_upds. exact H. Qed.
Lemma isnull_ren d v : isnull (ren d v) = isnull v. Proof. destruct v; reflexivity. Qed.
Lemma text_ren d v : text (ren d v) = text v. Proof. destruct v; reflexivity. Qed.
Lemma num_ren d v : num (ren d v) = num v. Proof. destruct v; reflexivity. Qed.
Lemma enum_ren d v x : is_enum (ren d v) x = is_enum v x. Proof. destruct v; reflexivity. Qed.
Lemma elems_ren d v : elems (ren d v) = map (ren d) (elems v). Proof. destruct v; reflexivity. Qed.
Lemma snoc_ren d v x : snoc (ren d v) (ren d x) = ren d (snoc v x). Proof. unfold snoc. rewrite elems_ren. unfold vec. cbn [ren]. rewrite map_app. reflexivity. Qed.
Lemma vec_ren d l : vec (map (ren d) l) = ren d (vec l). Proof. reflexivity. Qed.
Lemma class_ren d cs v : is_class cs (ren d v) = is_class cs v. Proof. destruct v; reflexivity. Qed.
Lemma filter_ren d cs l : filter (is_class cs) (map (ren d) l) = map (ren d) (filter (is_class cs) l).
Proof. induction l as [|x l IH]; [reflexivity|]. cbn [map filter]. rewrite class_ren, IH. now destruct (is_class cs x). Qed.
Lemma mem_ren d x l : (forall y, In y l -> True) -> mem_enum x (map (ren d) l) = mem_enum x l.
Proof. intros _. unfold mem_enum. induction l as [|y l IH]; [reflexivity|]. cbn [map existsb]. rewrite IH. f_equal. destruct x, y; reflexivity. Qed.

Lemma add_enum_ren d v x : add_enum (ren d v) (ren d x) = ren d (add_enum v x).
Proof.
  unfold add_enum. assert (E : mem_enum (ren d x) (elems (ren d v)) = mem_enum x (elems v)).
  { rewrite elems_ren. unfold mem_enum. induction (elems v) as [|y l IH]; [reflexivity|]. cbn [map existsb]. rewrite IH. f_equal. destruct x, y; reflexivity. }
  rewrite E. destruct (mem_enum x (elems v)); [reflexivity|apply snoc_ren].
Qed.
Lemma nth_ren d i args : nth i (map (ren d) args) VUninit = ren d (nth i args VUninit).
Proof. change VUninit with (ren d VUninit) at 1. apply map_nth. Qed.
Lemma csv_cases x : csv_field x = F_delimiter \/ csv_field x = F_null \/ csv_field x = F_quote.
Proof. unfold csv_field. destruct (is_enum x CsvDelimiter); [auto|]. destruct (is_enum x CsvNull); auto. Qed.
Lemma csv_ren d x : csv_field (ren d x) = csv_field x. Proof. unfold csv_field. now rewrite !enum_ren. Qed.
Ltac push := repeat first
  [ rewrite isnull_ren | rewrite text_ren | rewrite num_ren | rewrite enum_ren | rewrite elems_ren | rewrite filter_ren | rewrite class_ren | rewrite <- snoc_ren | rewrite <- add_enum_ren | rewrite mem_ren by auto | rewrite csv_ren
  | match goal with |- context [fget ?f (ren ?d ?v)] => rewrite (@fget_ren d f v) by reflexivity end
  | match goal with |- context [ren ?d (with_ ?l ?v)] => rewrite (@ren_with d l v) by reflexivity end; cbn [renf map fst snd] ].
Lemma asem_ren d r k args : r <> 274%N -> asem r (k + d) (map (ren (Z.of_nat d)) args) = option_map (ren (Z.of_nat d)) (asem r k args).
Proof.
  intro NR. set (D := Z.of_nat d). assert (KD : Z.of_nat (k + d) = (Z.of_nat k + D)%Z) by (unfold D; lia).
  assert (NT : forall i, nth (Nat.pred i) (map (ren D) args) VUninit = ren D (nth (Nat.pred i) args VUninit)) by (intro i; apply nth_ren).
  unfold asem. rewrite !NT, KD. clear NT KD. clearbody D.
  generalize (nth (Nat.pred 1) args VUninit) as d1, (nth (Nat.pred 2) args VUninit) as d2, (nth (Nat.pred 3) args VUninit) as d3, (nth (Nat.pred 4) args VUninit) as d4, (nth (Nat.pred 5) args VUninit) as d5,
    (nth (Nat.pred 6) args VUninit) as d6, (nth (Nat.pred 7) args VUninit) as d7, (nth (Nat.pred 8) args VUninit) as d8. intros. clear args. cbv zeta.
  destruct r as [|p]; [reflexivity|].
  do 9 (try (destruct p as [p|p|])); try reflexivity; try (contradiction NR; reflexivity); clear NR.
  all: unfold case_of, table_ref, create, drop_, set_op, constraints, options, file_type, null_ordering; cbn [option_map]; push.
  all: try reflexivity.
  all: try (match goal with |- context [if ?b then _ else _] => destruct b end; cbn [option_map]; push; reflexivity).
  all: try (repeat match goal with |- context [if ?b then _ else _] => destruct b; cbn [option_map]; try reflexivity end; push; reflexivity).
  all: try (match goal with |- context [add_enum (ren ?D ?a) ForeignKey] => change (add_enum (ren D a) ForeignKey) with (add_enum (ren D a) (ren D ForeignKey)) end; rewrite snoc_ren, add_enum_ren; reflexivity).
  all: try (rewrite ?snoc_ren, ?add_enum_ren; reflexivity).
  all: try (destruct (csv_cases (fget F_first d1)) as [E|[E|E]]; rewrite E; reflexivity).
  all: try (destruct (scan_interval1 (text d2)); reflexivity).
  all: try (unfold vec; cbn [ren map]; rewrite ren_with by reflexivity; reflexivity).
  all: try (destruct (csv_cases (fget F_first d3)) as [E|[E|E]]; rewrite E; destruct (isnull (fget F_csv_options d1)); push; match goal with |- context [if ?b then _ else _] => destruct b end; cbn [option_map]; push; reflexivity).
  assert (UN : forall u, match unit_of u with Some f => ren D f = f | None => True end).
  { intro u. unfold unit_of. repeat (match goal with |- context [if ?b then _ else _] => destruct b end; [reflexivity|]). exact I. }
  destruct (scan_interval2 (text d2)) as [|n u|]; try reflexivity. specialize (UN u). destruct (unit_of u) as [f|]; [|reflexivity]. cbn [option_map]. f_equal. rewrite <- UN at 1. reflexivity.
Qed.
Lemma token_ren d t : ren d (token_val t) = token_val t. Proof. unfold token_val. destruct (t_val t); reflexivity. Qed.
Lemma int_fixed t k v n : derives S_int_literal t -> sem t k = Some (v, n) -> exists z, v = int_lit z.
Proof.
  intros D S. inversion D as [q E|r lhs rhs us P DL]; subst.
  - exfalso. destruct (yytranslate_range (@code_range q)) as (z & _ & RZ & _ & EZ). rewrite sym_code, E in EZ. unfold S_int_literal in EZ. lia.
  - assert (r = 292%N) as ->.
    { assert (A : forallb (fun p => if N.eqb (fst (snd p)) S_int_literal then N.eqb (fst p) 292 else true) grammar = true) by (vm_compute; reflexivity).
      rewrite forallb_forall in A. apply production_In in P. specialize (A _ P). cbn [fst snd] in A. rewrite N.eqb_refl in A. now apply N.eqb_eq in A. }
    rewrite sem_node in S. destruct (sems us k) as [[vs k1]|]; [|discriminate S]. cbn [asem] in S. assert (X : v = int_lit (num (nth (Nat.pred 1) vs VUninit))) by congruence. eauto.
Qed.
(** The value with all the parameters counted from [k + d] instead of [k]. *)
Definition renp (d : nat) (p : val * nat) : val * nat := (ren (Z.of_nat d) (fst p), snd p + d).
Definition renps (d : nat) (p : list val * nat) : list val * nat := (map (ren (Z.of_nat d)) (fst p), snd p + d).
Theorem sem_ren d : (forall X t, derives X t -> forall k, sem t (k + d) = option_map (renp d) (sem t k)).
Proof.
  intros X t D. revert X t D. apply (derives_mind (fun X t _ => forall k, sem t (k + d) = option_map (renp d) (sem t k))
    (fun Xs us _ => forall k, sems us (k + d) = option_map (renps d) (sems us k))).
  - intros t k. cbn [sem option_map]. unfold renp. cbn [fst snd]. now rewrite token_ren.
  - intros r lhs rhs us P DL IH k. rewrite !sem_node, IH. destruct (sems us k) as [[vs k1]|] eqn:S; [|reflexivity]. cbn [option_map renps fst snd].
    destruct (N.eq_dec r 274) as [->|NR].
    + assert (PR : production 274 = Some (S_array_index, [S_operand; S_lbrack; S_int_literal; S_rbrack])) by (vm_compute; reflexivity). rewrite PR in P. injection P as <- <-.
      inversion DL as [|? ? u1 ? D1 DL1]; subst. inversion DL1 as [|? ? u2 ? D2 DL2]; subst. inversion DL2 as [|? ? u3 ? D3 DL3]; subst. inversion DL3 as [|? ? u4 ? D4 DL4]; subst. inversion DL4; subst.
      cbn [sems] in S. destruct (sem u1 k) as [[v1 q1]|]; [|discriminate S]. destruct (sem u2 q1) as [[v2 q2]|]; [|discriminate S]. destruct (sem u3 q2) as [[v3 q3]|] eqn:S3; [|discriminate S]. destruct (sem u4 q3) as [[v4 q4]|]; [|discriminate S].
      assert (vs = [v1; v2; v3; v4]) by congruence. subst vs. destruct (int_fixed D3 S3) as (z & ->).
      cbn [asem map nth Nat.pred N.eqb Pos.eqb] in *. reflexivity.
    + rewrite (@asem_ren d r k1 vs NR). destruct (asem r k1 vs) as [w|]; [|reflexivity]. cbn [option_map]. unfold renp. cbn [fst snd]. f_equal. f_equal. destruct (N.eqb r 298); reflexivity.
  - intros k. reflexivity.
  - intros X Xs t ts D IH DL IHL k. cbn [sems]. rewrite IH. destruct (sem t k) as [[v k1]|] eqn:S; [|reflexivity]. cbn [option_map renp fst snd]. rewrite IHL. destruct (sems ts k1) as [[ws k2]|] eqn:SS; reflexivity.
Qed.
