(** Property C43: comparison of column types. *)
From Verif Require Import Expr Base Ast Typing Own Print PropPrint.
From Coq Require Import String. Import ListNotations.
Local Open Scope N_scope.

(** ** Model *)
(** bool operator==(const ColumnType&, const ColumnType&), /repo/src/sql/statements.cpp:13-18.  [None]: an indeterminate or missing member is read (a
    default constructed ColumnType, ColumnType.h:29).  As in the code, the other members are only read if the data types agree, and && stops at the first difference. *)
Definition member_int (f : fld) (v : val) : option Z := obind (mem f v) int_of.
Definition type_eq (a b : val) : option bool :=
  x <-o obind (mem F_data_type a) enum_of ; y <-o obind (mem F_data_type b) enum_of ;
  if negb (x =? y) then Some false else
  x <-o member_int F_length a ; y <-o member_int F_length b ;
  if negb (x =? y)%Z then Some false else
  x <-o member_int F_precision a ; y <-o member_int F_precision b ;
  if negb (x =? y)%Z then Some false else
  x <-o member_int F_scale a ; y <-o member_int F_scale b ; Some (x =? y)%Z.
(** bool operator!=, statements.cpp:20. *)
Definition type_ne (a b : val) : option bool := r <-o type_eq a b ; Some (negb r).

(** ** Specification: an initialised ColumnType *)
Definition a_type (v : val) (d : N) (length precision scale : Z) : Prop := mem F_data_type v = Some (VEnum EDataType d) /\ mem F_length v = Some (VInt length) /\ mem F_precision v = Some (VInt precision) /\ mem F_scale v = Some (VInt scale).
Definition initialised (v : val) : Prop := exists d l p s, a_type v d l p s.

Lemma type_eq_is a b d l p s d' l' p' s' : a_type a d l p s -> a_type b d' l' p' s' -> type_eq a b = Some ((d =? d') && (l =? l')%Z && (p =? p')%Z && (s =? s')%Z).
Proof.
  intros (A1 & A2 & A3 & A4) (B1 & B2 & B3 & B4). unfold type_eq, member_int. rewrite A1, A2, A3, A4, B1, B2, B3, B4. cbn [obind enum_of int_of].
  destruct (d =? d'); cbn [negb andb]; [|reflexivity]. destruct (l =? l')%Z; cbn [negb andb]; [|reflexivity]. destruct (p =? p')%Z; cbn [negb andb]; [|reflexivity]. destruct (s =? s')%Z; reflexivity.
Qed.
(** Two initialised types compare equal exactly if all four members agree; != is the negation. *)
Theorem C43_compares_all : forall a b d l p s d' l' p' s', a_type a d l p s -> a_type b d' l' p' s' ->
  (type_eq a b = Some true <-> d = d' /\ l = l' /\ p = p' /\ s = s') /\ (type_eq a b = Some false <-> d <> d' \/ l <> l' \/ p <> p' \/ s <> s') /\
  (type_ne a b = Some true <-> type_eq a b = Some false) /\ (type_ne a b = Some false <-> type_eq a b = Some true).
Proof.
  intros a b d l p s d' l' p' s' A B. unfold type_ne. rewrite (type_eq_is _ _ _ _ _ _ _ _ _ _ A B). cbn [obind].
  destruct (N.eqb_spec d d'), (Z.eqb_spec l l'), (Z.eqb_spec p p'), (Z.eqb_spec s s'); cbn [andb negb]; repeat split; intros; try discriminate; try congruence; try tauto;
    repeat match goal with H : _ /\ _ |- _ => destruct H | H : _ \/ _ |- _ => destruct H end; congruence.
Qed.
(** == is an equivalence relation on initialised types. *)
Theorem C43_equivalence :
  (forall a, initialised a -> type_eq a a = Some true) /\
  (forall a b, initialised a -> initialised b -> type_eq a b = type_eq b a /\ exists r, type_eq a b = Some r) /\
  (forall a b c, initialised a -> initialised b -> initialised c -> type_eq a b = Some true -> type_eq b c = Some true -> type_eq a c = Some true).
Proof.
  split; [|split].
  - intros a (d & l & p & s & A). apply (proj1 (C43_compares_all _ _ _ _ _ _ _ _ _ _ A A)). repeat split.
  - intros a b (d & l & p & s & A) (d' & l' & p' & s' & B). rewrite (type_eq_is _ _ _ _ _ _ _ _ _ _ A B), (type_eq_is _ _ _ _ _ _ _ _ _ _ B A).
    rewrite (N.eqb_sym d'), (Z.eqb_sym l'), (Z.eqb_sym p'), (Z.eqb_sym s'). eauto.
  - intros a b c (d & l & p & s & A) (d' & l' & p' & s' & B) (d2 & l2 & p2 & s2 & C) E1 E2. apply (proj1 (C43_compares_all _ _ _ _ _ _ _ _ _ _ A B)) in E1. apply (proj1 (C43_compares_all _ _ _ _ _ _ _ _ _ _ B C)) in E2.
    apply (proj1 (C43_compares_all _ _ _ _ _ _ _ _ _ _ A C)). destruct E1 as (-> & -> & -> & ->). exact E2.
Qed.

(** ** Where the types come from *)
From Verif Require Import Heap Actions ParseModel Api ParseProof PropResult.
Notation has := PropPrint.has (only parsing).
(** [inside v s]: [v] is a part of the object tree [s]. *)
Inductive inside (v : val) : val -> Prop :=
| in_here : inside v v
| in_obj : forall a c fs f x, In (f, x) fs -> inside v x -> inside v (VObj a c fs)
| in_rec : forall fs f x, In (f, x) fs -> inside v x -> inside v (VRec fs)
| in_vec : forall a l x, In x l -> inside v x -> inside v (VVec a l).
Lemma wts_In fs ts f x : wts fs ts -> In (f, x) fs -> exists t, wt x t.
Proof. induction 1 as [|g v t fs ts W _ IH]; [intros []|]. intros [E|I]; [injection E as -> ->; eauto|auto]. Qed.
Lemma inside_wt v s : inside v s -> (exists t, wt s t) -> exists t, wt v t.
Proof.
  induction 1 as [|a c fs f x I IN IH|fs f x I IN IH|a l x I IN IH]; intros (t & W); [eauto| | |]; apply IH; clear IH IN.
  - remember (VObj a c fs) as s eqn:E. revert fs a c E I. induction W; intros; try discriminate; [eapply IHW; eassumption|]. injection E as -> _ ->. eapply wts_In; eassumption.
  - remember (VRec fs) as s eqn:E. revert fs E I. induction W; intros; try discriminate; [eapply IHW; eassumption|]. injection E as ->. eapply wts_In; eassumption.
  - remember (VVec a l) as s eqn:E. revert a l E I. induction W; intros; try discriminate; [eapply IHW; eassumption|]. injection E as -> ->. eexists. eapply wtl_In; eassumption.
Qed.
Lemma coltype_initialised v : wt v TColType -> initialised v.
Proof.
  intro W. apply wt_rec_inv in W as (fs & -> & W).
  destruct (wts_look _ _ F_data_type _ W eq_refl) as (v1 & L1 & W1 & _). destruct (wts_look _ _ F_length _ W eq_refl) as (v2 & L2 & W2 & _). destruct (wts_look _ _ F_precision _ W eq_refl) as (v3 & L3 & W3 & _). destruct (wts_look _ _ F_scale _ W eq_refl) as (v4 & L4 & W4 & _).
  apply wt_enum_inv in W1 as (n & -> & _). apply wt_int_inv in W2 as (z2 & ->). apply wt_int_inv in W3 as (z3 & ->). apply wt_int_inv in W4 as (z4 & ->). now exists n, z2, z3, z4.
Qed.
Lemma typed_object a c fs t : wt (VObj a c fs) t -> exists s, c = fst (shape_def s) /\ has (VObj a c fs) s.
Proof. remember (VObj a c fs) as v eqn:E. induction 1; intros; try discriminate; [auto|]. injection E as -> <- ->. exists s. split; [reflexivity|]. now exists a, fs. Qed.
(** The member of an object that holds a column type: Expr.h (columnType), CreateStatement.h (ColumnDefinition::type). *)
Definition type_member (c : cls) : option fld := match c with CExpr => Some F_columnType | CColumnDefinition => Some F_type | _ => None end.
Lemma shape_type_member s f : type_member (fst (shape_def s)) = Some f -> tylook f (snd (shape_def s)) = Some TColType.
Proof.
  intro E. destruct s as [| | | | | | | | | | | | | | | | | | | | | | | | | | | | | | | | | | | | | | | | | | | | | | | | | | | | | | | | | | |k m| | | | | | | | | | | | | | | | | | | | | |]; try discriminate E; try (injection E as <-; reflexivity). destruct k; discriminate E.
Qed.
(** Every expression and every column definition in a statement held by a result object has an initialised type; in particular == and != are defined for any
    two of them, even of different statements. *)
Theorem C43_parsed_types : forall w s a c fs f, reachable w -> In s (r_stmts (w_res w)) -> inside (VObj a c fs) s -> type_member c = Some f ->
  exists t, mem f (VObj a c fs) = Some t /\ initialised t.
Proof.
  intros w s a c fs f R I IN TM. destruct (reachable_ok w R) as [[WL _] _]. destruct (inside_wt _ _ IN (ex_intro _ _ (wtl_In WL I))) as (t & W).
  destruct (typed_object _ _ _ _ W) as (sh & -> & H). destruct (has_mem _ _ _ _ H (shape_type_member _ _ TM)) as (v & E & Wv & _). exists v. split; [exact E|now apply coltype_initialised].
Qed.
(** The object of a written column type: synonyms are equal, different lengths, precisions and scales are not. *)
Example C43_example : initialised (ctype_obj (Expr.TVarchar 10)) /\
  type_eq (ctype_obj (Expr.TVarchar 10)) (ctype_obj (Expr.TCharVarying 10)) = Some true /\ type_eq (ctype_obj (Expr.TVarchar 10)) (ctype_obj (Expr.TVarchar 11)) = Some false /\
  type_eq (ctype_obj (Expr.TDecimal2 6 4)) (ctype_obj (Expr.TDecimal2 6 5)) = Some false /\ type_eq (ctype_obj (Expr.TDecimal2 6 4)) (ctype_obj (Expr.TDecimal2 7 4)) = Some false /\
  type_eq (ctype_obj (Expr.TChar 10)) (ctype_obj (Expr.TVarchar 10)) = Some false /\ type_eq (VRec [(F_data_type, VUninit)]) (ctype_obj Expr.TInt) = None.
Proof. repeat split; try reflexivity. now exists 15%N, 10%Z, 0%Z, 0%Z. Qed.
