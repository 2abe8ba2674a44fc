(** Property C36: printStatementInfo is safe on every statement a parse can produce.

    Vocabulary.  [printStatementInfo] (Print.v): what the function writes, [None] = undefined behaviour (null or indeterminate pointer dereferenced,
    indeterminate member read, object of another class) or unbounded recursion. *)
From Verif Require Import Base Ast Typing Own Print.
From Coq Require Import String. Import ListNotations.
Local Open Scope N_scope.

Definition safe (x : prints) : Prop := exists l, x = Some l.
Lemma safe_some l : safe (Some l).
Proof. now exists l. Qed.
Lemma safe_cat l : Forall safe l -> safe (cat l).
Proof. induction 1 as [|x l (a & ->) _ (b & IH)]; [now exists []|]. exists (a ++ b)%list. cbn [cat obind]. now rewrite IH. Qed.
Lemma safe_each f l : (forall x, In x l -> safe (f x)) -> safe (each f l).
Proof. induction l as [|x l IH]; intro H; [now exists []|]. destruct (H x (or_introl eq_refl)) as (a & A). destruct IH as (b & B); [intros; apply H; now right|]. exists (a ++ b)%list. cbn [each obind]. now rewrite A; cbn [obind]; rewrite B. Qed.

Fixpoint tylook (f : fld) (ts : list (fld * ty)) : option ty := match ts with [] => None | (g, t) :: ts' => if fld_beq f g then Some t else tylook f ts' end.
Fixpoint fsize (fs : list (fld * val)) : nat := match fs with [] => 0 | (_, y) :: r => vsize y + fsize r end%nat.
Fixpoint lsize (l : list val) : nat := match l with [] => 0 | y :: r => vsize y + lsize r end%nat.
Lemma vsize_obj a c fs : vsize (VObj a c fs) = S (fsize fs). Proof. reflexivity. Qed.
Lemma vsize_vec a l : vsize (VVec a l) = S (lsize l). Proof. reflexivity. Qed.
Lemma In_lsize x l : In x l -> (vsize x <= lsize l)%nat.
Proof. induction l as [|y l IH]; [intros []|]. intros [->|I]; cbn [lsize]; [lia|]. specialize (IH I). lia. Qed.
Lemma wts_look fs ts f t : wts fs ts -> tylook f ts = Some t -> exists v, lookup f fs = Some v /\ wt v t /\ (vsize v <= fsize fs)%nat.
Proof.
  induction 1 as [|g v u fs ts W _ IH]; [discriminate|]. cbn [tylook lookup fsize]. destruct (fld_beq f g); [intro E; injection E as <-; exists v; repeat split; auto; lia|].
  intro E. destruct (IH E) as (w & L & Wt & S). exists w. repeat split; auto. lia.
Qed.

(** The type of an object of one of the shapes. *)
Definition has (p : val) (s : shape) : Prop := exists a fs, p = VObj a (fst (shape_def s)) fs /\ wts fs (snd (shape_def s)).
Lemma has_mem p s f t : has p s -> tylook f (snd (shape_def s)) = Some t -> exists v, mem f p = Some v /\ wt v t /\ (vsize v < vsize p)%nat.
Proof. intros (a & fs & -> & W) L. destruct (wts_look _ _ _ _ W L) as (v & E & Wv & Sv). exists v. cbn [mem]. repeat split; auto. rewrite vsize_obj. lia. Qed.
Lemma wt_has p l : wt p (TObj l) -> exists s, In s l /\ has p s.
Proof. intro W. apply wt_obj_inv in W as (a & s & fs & -> & I & W). exists s. split; [exact I|]. now exists a, fs. Qed.

Lemma safe_on p s f t body : has p s -> tylook f (snd (shape_def s)) = Some t -> (forall x, wt x t -> (vsize x < vsize p)%nat -> safe (body x)) -> safe (on f p body).
Proof. intros H L B. destruct (has_mem _ _ _ _ H L) as (v & E & W & S). unfold on. rewrite E. cbn [obind]. auto. Qed.
(** Types of pointers; [strip]: what is behind a pointer that is not null. *)
Fixpoint pointer (t : ty) : bool := match t with TNull | TStr | TObj _ | TVec _ => true | TOpt t => pointer t | _ => false end.
Fixpoint strip (t : ty) : ty := match t with TOpt t => strip t | t => t end.
Lemma present_ok t : pointer t = true -> forall v, wt v t -> v = VNull /\ present v = Some false \/ present v = Some true /\ wt v (strip t) /\ strip t <> TNull.
Proof.
  induction t; cbn [pointer strip]; try discriminate; intros P v W.
  - left. apply wt_null_inv in W as ->. auto.
  - right. pose proof W as W0. apply wt_str_inv in W as (a & s & ->). repeat split; [exact W0|discriminate].
  - apply wt_opt_inv in W as [->|W]; [now left|]. auto.
  - right. pose proof W as W0. apply wt_vec_inv in W as (a & l0 & -> & _). repeat split; [exact W0|discriminate].
  - right. pose proof W as W0. apply wt_obj_inv in W as (a & s & fs & -> & _). repeat split; [exact W0|discriminate].
Qed.
Lemma safe_if p s f t body : has p s -> tylook f (snd (shape_def s)) = Some t -> pointer t = true ->
  (strip t <> TNull -> forall x, wt x (strip t) -> (vsize x < vsize p)%nat -> safe (body x)) -> safe (if_some f p body).
Proof.
  intros H L P B. destruct (has_mem _ _ _ _ H L) as (v & E & W & S). unfold if_some. rewrite E. cbn [obind]. destruct (present_ok _ P _ W) as [[-> ->]|(-> & W' & N)]; cbn [obind]; [apply safe_some|auto].
Qed.
Lemma has_enum p s f e l (body : N -> prints) : has p s -> tylook f (snd (shape_def s)) = Some (TEnum e l) -> (forall n, In n l -> safe (body n)) -> safe (obind (obind (mem f p) enum_of) body).
Proof. intros H L B. destruct (has_mem _ _ _ _ H L) as (v & -> & W & _). apply wt_enum_inv in W as (n & -> & I). cbn [obind enum_of]. auto. Qed.
Lemma safe_str x i : wt x TStr -> safe (inprint_str x i).
Proof. intro W. apply wt_str_inv in W as (a & s & ->). apply safe_some. Qed.
Lemma safe_int x i : wt x TInt -> safe (inprint_int x i).
Proof. intro W. apply wt_int_inv in W as (z & ->). apply safe_some. Qed.
Lemma safe_dbl x i : wt x TFlt -> safe (inprint_dbl x i).
Proof. intro W. apply wt_flt_inv in W as (z & ->). apply safe_some. Qed.
Lemma safe_op x i e l : wt x (TEnum e l) -> safe (inprint_op x i).
Proof. intro W. apply wt_enum_inv in W as (z & -> & _). apply safe_some. Qed.
Lemma safe_field x i e l : wt x (TEnum e l) -> safe (inprint_field x i).
Proof. intro W. apply wt_enum_inv in W as (z & -> & _). apply safe_some. Qed.
Lemma safe_type x i : wt x TColType -> safe (inprint_type x i).
Proof.
  intro W. apply wt_rec_inv in W as (fs & -> & W). destruct (wts_look _ _ F_data_type _ W eq_refl) as (v & L1 & W1 & _). destruct (wts_look _ _ F_length _ W eq_refl) as (u & L2 & W2 & _).
  apply wt_enum_inv in W1 as (n & -> & _). apply wt_int_inv in W2 as (z & ->). unfold inprint_type, show_type. cbn [mem]. rewrite L1, L2. cbn [obind enum_of int_of]. destruct ((n =? 3) || (n =? 15)); apply safe_some.
Qed.
Lemma safe_items x t (body : list val -> prints) : wt x (TVec t) -> (forall l, (forall y, In y l -> wt y t /\ (vsize y < vsize x)%nat) -> safe (body l)) -> safe (obind (items_of x) body).
Proof.
  intros W B. apply wt_vec_inv in W as (a & l & -> & W). cbn [items_of obind]. apply B. intros y I. split; [eapply wtl_In; eassumption|]. rewrite vsize_vec. apply In_lsize in I. lia.
Qed.
Lemma safe_bound x : wt x (TObj [YBound]) -> exists l, show_bound x = Some l.
Proof.
  intro W. apply wt_has in W as (s & [<-|[]] & H). destruct (has_mem _ _ F_type _ H eq_refl) as (v & E1 & W1 & _). destruct (has_mem _ _ F_unbounded _ H eq_refl) as (u & E2 & W2 & _). destruct (has_mem _ _ F_offset _ H eq_refl) as (o & E3 & W3 & _).
  apply wt_enum_inv in W1 as (n & -> & _). apply wt_bool_inv in W2 as (b & ->). apply wt_int_inv in W3 as (z & ->). unfold show_bound. rewrite E1, E2, E3. cbn [obind enum_of bool_of int_of]. destruct (n =? 2); [eauto|]. destruct b; cbn [obind]; eauto.
Qed.

(** ** Shapes that are printed *)
Definition expr_like : list shape := expr_shapes ++ alias_shapes ++ [XCaseElem; XUnLit; XCastLit].
Fixpoint printable (t : ty) : bool := match t with TNull => true | TOpt t => printable t | TObj l => forallb (fun s => mem_shape s expr_like) l | _ => false end.
Definition refs : list shape := [RName; RSelect; RJoin; RCross].
Definition is_refs (t : ty) : bool := match t with TObj l => forallb (fun s => mem_shape s refs) l | _ => false end.
Definition sels : list shape := flat_map (fun k => map (St k) modes) [KSelW; KSelN; KSelS].
Definition is_sels (t : ty) : bool := match t with TObj l => forallb (fun s => mem_shape s sels) l | _ => false end.

Definition goodn (n : nat) : Prop :=
  (forall v t i, (vsize v < n)%nat -> printable t = true -> wt v t -> safe (print_expr n v i)) /\
  (forall v i, (vsize v < n)%nat -> wt v (TVec (TObj [YOrder])) -> safe (print_order n v i)) /\
  (forall v i, (vsize v < n)%nat -> wt v (TObj [YWindow]) -> safe (print_window n v i)) /\
  (forall v t i, (vsize v < n)%nat -> is_refs t = true -> wt v t -> safe (print_ref n v i)) /\
  (forall v t i, (vsize v < n)%nat -> is_sels t = true -> wt v t -> safe (print_select n v i)).

Lemma safe_alias x i : wt x (TObj [YAliasP; YAliasC]) -> safe (print_alias x i).
Proof.
  intro W. apply wt_has in W as (s & I & H). unfold print_alias. apply safe_cat. repeat apply Forall_cons; [apply safe_some| | |constructor].
  - destruct I as [<-|[<-|[]]]; (eapply safe_on; [exact H|reflexivity|]; intros y Wy _; now apply safe_str).
  - destruct I as [<-|[<-|[]]]; (eapply safe_if; [exact H|reflexivity|reflexivity|]); intro N; [now destruct N|]. intros y Wy _. eapply safe_items; [exact Wy|]. intros l L. apply safe_each. intros z Iz. apply safe_str, L, Iz.
Qed.
Lemma safe_locking x i : wt x (TObj [YLock]) -> safe (print_locking x i).
Proof.
  intro W. apply wt_has in W as (s & [<-|[]] & H). unfold print_locking. eapply has_enum; [exact H|reflexivity|]. intros m _. eapply has_enum; [exact H|reflexivity|]. intros w _.
  apply safe_cat. apply Forall_cons; [apply safe_some|]. apply Forall_cons; [repeat match goal with |- safe (match ?x with _ => _ end) => destruct x end; apply safe_some|].
  apply Forall_cons; [eapply safe_if; [exact H|reflexivity|reflexivity|]; intros _ y Wy _; eapply safe_items; [exact Wy|]; intros l L; apply safe_cat; apply Forall_cons; [apply safe_some|]; apply Forall_cons; [|constructor]; apply safe_each; intros z Iz; apply safe_str, L, Iz|].
  apply Forall_cons; [|constructor]. destruct (w =? 2); [apply safe_some|]. apply safe_cat. repeat apply Forall_cons; try constructor; [apply safe_some|]. destruct (w =? 0); apply safe_some.
Qed.

Lemma In_forallb {A} (f : A -> bool) l x : forallb f l = true -> In x l -> f x = true.
Proof. intro H. apply forallb_forall. exact H. Qed.

Ltac leaf_tac := match goal with
  | |- safe (Some _) => apply safe_some | |- safe (txt _ _) => apply safe_some
  | |- safe (inprint_str _ _) => eapply safe_str; eassumption | |- safe (inprint_int _ _) => eapply safe_int; eassumption | |- safe (inprint_dbl _ _) => eapply safe_dbl; eassumption
  | |- safe (inprint_op _ _) => eapply safe_op; eassumption | |- safe (inprint_field _ _) => eapply safe_field; eassumption | |- safe (inprint_type _ _) => eapply safe_type; eassumption
  | |- safe (cat _) => apply safe_cat | |- Forall safe [] => apply Forall_nil | |- Forall safe (_ :: _) => apply Forall_cons end.
Ltac go E O W R S :=
  first [ leaf_tac
        | match goal with H : wt ?x _ |- safe (print_alias ?x _) => apply safe_alias; exact H end
        | match goal with H : wt ?x _ |- safe (print_locking ?x _) => apply safe_locking; exact H end
        | match goal with H : has ?p ?s |- safe (on ?f ?p _) => eapply safe_on; [exact H|reflexivity|intros ? ? ?; cbn beta] end
        | match goal with H : has ?p ?s |- safe (if_some ?f ?p _) => eapply safe_if; [exact H|reflexivity|reflexivity|let N := fresh in intro N; try (exfalso; now apply N); clear N; intros ? ? ?; cbn beta] end
        | match goal with H : wt ?x (strip ?t) |- _ => let u := eval hnf in (strip t) in change (strip t) with u in H end
        | match goal with H : wt ?x ?t |- safe (obind (present ?x) _) => let W' := fresh in let N := fresh in destruct (present_ok t eq_refl x H) as [[-> ->]|(-> & W' & N)]; [try (exfalso; now inversion H)|try (exfalso; now apply N); clear N]; cbn [obind] end
        | match goal with H : wt ?x (TVec _) |- safe (obind (items_of ?x) _) => eapply safe_items; [exact H|let L := fresh "L" in intros ? L; cbn beta] end
        | match goal with L : forall y, In y ?l -> _ |- safe (each _ ?l) => apply safe_each; let x := fresh "x" in let Ix := fresh in let Wx := fresh in intros x Ix; destruct (L x Ix) as [Wx ?] end
        | match goal with H : wt ?x ?t |- safe (print_expr _ ?x _) => apply (E x t); [lia|reflexivity|exact H] end
        | match goal with H : wt ?x _ |- safe (print_order _ ?x _) => apply (O x); [lia|exact H] end
        | match goal with H : wt ?x _ |- safe (print_window _ ?x _) => apply (W x); [lia|exact H] end
        | match goal with H : wt ?x ?t |- safe (print_ref _ ?x _) => apply (R x t); [lia|reflexivity|exact H] end
        | match goal with H : wt ?x ?t |- safe (print_select _ ?x _) => apply (S x t); [lia|reflexivity|exact H] end ].

(** Open the object a member of which is accessed. *)
Ltac open_obj x := match goal with Wx : wt x (TObj _) |- _ => let I := fresh in let s := fresh in apply wt_has in Wx as (s & I & ?); cbn [In] in I; repeat (destruct I as [<-|I]; [|]); [..|contradiction] end.
Ltac open_one := match goal with |- safe (on _ ?x _) => open_obj x | |- safe (if_some _ ?x _) => open_obj x | |- safe (obind (obind (mem _ ?x) enum_of) _) => open_obj x end.
Ltac choice := match goal with
  | H : has ?p ?s |- safe (obind (obind (mem ?f ?p) enum_of) _) => eapply has_enum; [exact H|reflexivity|intros ? [<-|[]]]
  | H : has ?p ?s |- safe (obind (obind (mem ?f ?p) enum_of) _) => eapply has_enum; [exact H|reflexivity|let K := fresh in intros ? K; clear K]
  | |- safe (match ?x with _ => _ end) => destruct x end.

Lemma good : forall n, goodn n.
Proof.
  induction n as [|n (E & O & W & R & S)]; [repeat split; intros; lia|]. split; [|split; [|split; [|split]]].
  - intros v t i Sz P Wt. revert P Wt. induction t; try discriminate; cbn [printable]; intros P Wt.
    + apply wt_null_inv in Wt as ->. apply safe_some.
    + apply wt_opt_inv in Wt as [->|Wt]; [apply safe_some|auto].
    + apply wt_has in Wt as (s & I & H). apply (In_forallb _ _ _ P) in I. apply mem_shape_In in I. clear P.
      cbn [print_expr]. assert (PR : present v = Some true) by (destruct H as (a & fs & -> & _); reflexivity). rewrite PR. cbn [obind negb]. clear PR.
      unfold expr_like, expr_shapes, alias_shapes in I. cbn [app In] in I.
      repeat (destruct I as [<-|I]; [eapply has_enum; [exact H|reflexivity|]; intros k K; destruct K as [<-|[]]; repeat (go E O W R S) |]). 
      all: contradiction.
  - intros v i Sz Wt. cbn [print_order]. pose proof Wt as Wt0. apply wt_vec_inv in Wt as (a & l & -> & _). cbn [present obind negb].
    eapply safe_items; [exact Wt0|]. intros l0 L. apply safe_each. intros x Ix. destruct (L x Ix) as [Wx Sx]. apply wt_has in Wx as (s & [<-|[]] & H).
    repeat (go E O W R S). eapply has_enum; [exact H|reflexivity|]. intros k _. destruct (k =? 0); apply safe_some.
  - intros v i Sz Wt. cbn [print_window]. apply wt_has in Wt as (s & [<-|[]] & H). repeat (go E O W R S).
    match goal with Wx : wt ?x (TObj [YFrame]) |- _ => apply wt_has in Wx as (s & [<-|[]] & H2) end. eapply has_enum; [exact H2|reflexivity|]. intros k _.
    destruct (has_mem _ _ F_start _ H2 eq_refl) as (b1 & -> & W1 & _). destruct (has_mem _ _ F_end _ H2 eq_refl) as (b2 & -> & W2 & _). cbn [obind].
    destruct (safe_bound _ W1) as (l1 & ->). destruct (safe_bound _ W2) as (l2 & ->). apply safe_some.
  - intros v t i Sz P Wt. destruct t; try discriminate. cbn [is_refs] in P. apply wt_has in Wt as (s & I & H). apply (In_forallb _ _ _ P) in I. apply mem_shape_In in I. clear P.
    cbn [print_ref]. unfold refs in I. cbn [In] in I. repeat (destruct I as [<-|I]; [eapply has_enum; [exact H|reflexivity|]; intros k K; destruct K as [<-|[]]; repeat (go E O W R S)|]). all: try contradiction.
    all: match goal with Wx : wt ?x (TObj [JNat; JOn; JUsing]) |- _ => apply wt_has in Wx as (s & I & H2) end; cbn [In] in I; repeat (destruct I as [<-|I]; [repeat (go E O W R S)|]); contradiction.
  - intros v t i Sz P Wt. destruct t; try discriminate. cbn [is_sels] in P. apply wt_has in Wt as (s & I & H). apply (In_forallb _ _ _ P) in I. apply mem_shape_In in I. clear P.
    cbn [print_select]. unfold sels, modes in I. cbn [flat_map map app In] in I.
    repeat (destruct I as [<-|I]; [repeat (first [go E O W R S | choice | open_one])|]). contradiction.
Qed.

Lemma final_kinds k : In k all_kinds -> In k [KSelS; KCreTbl; KCreCols; KCreAs; KCreIdx; KCreView; KInsV; KInsS; KDel; KUpd; KDropT; KDropP; KDropI; KAlter; KExec; KTrans; KPrep; KExpT; KExpS; KImp; KShowT; KShowC].
Proof. exact (fun H => H). Qed.
Lemma print_ok v : wt v TFinal -> safe (printStatementInfo v).
Proof.
  intro Wt. unfold TFinal, TStmts in Wt. pose proof Wt as W0. apply wt_has in Wt as (s & I & H). apply in_map_iff in I as (k & <- & I). apply final_kinds in I. cbn [In] in I.
  destruct (good (print_fuel v)) as (E & O & W & R & S). assert (Sz : (vsize v < print_fuel v)%nat) by (unfold print_fuel; lia).
  assert (CS : cast (fst (shape_def (St k MFinal))) v = Some v) by (destruct H as (a & fs & -> & _); cbn [cast]; now rewrite cls_beq_refl).
  assert (SEL : k = KSelS -> wt v (TObj [St KSelS MFinal])) by (intros ->; destruct H as (a & fs & -> & Wf); apply wt_obj; [now left|exact Wf]). clear W0.
  unfold printStatementInfo.
  repeat (destruct I as [<-|I]; [eapply has_enum; [exact H|reflexivity|]; intros k0 K; destruct K as [<-|[]]; try (cbn [shape_def fst] in CS; rewrite CS; cbn [obind]; unfold print_import, print_export, print_create, print_insert, print_transaction, print_file_type);
    try (apply (S v (TObj [St KSelS MFinal])); [exact Sz|reflexivity|now apply SEL]); repeat (first [go E O W R S | choice | open_one])|]). contradiction.
Qed.

(** ** C36 *)
From Verif Require Import Heap Actions ParseModel Api ParseProof PropResult.
(** Every statement held by a result object, after any history of parses, resets, releases and moves, successful or not: printing it is defined (no null or
    indeterminate pointer is dereferenced, nothing indeterminate is read, the recursion ends), and every block it may read is allocated. *)
Theorem C36_print_safe : forall w s, reachable w -> In s (r_stmts (w_res w)) ->
  (exists lines, printStatementInfo s = Some lines) /\ (forall x, (1 <= ca x s)%nat -> In x (e_live (w_env w))).
Proof.
  intros w s R I. destruct (reachable_ok w R) as [[WL _] (lost & H)]. split; [apply print_ok; eapply wtl_In; eassumption|].
  intros x X. apply memN_In. eapply heap_mem; [exact H|]. cbn beta. unfold owned.
  assert (C : (ca x s <= cas x (r_stmts (w_res w)))%nat). { clear -I. induction (r_stmts (w_res w)) as [|y l IH]; [destruct I|]. cbn [cas]. destruct I as [->|I]; [lia|]. specialize (IH I). lia. }
  lia.
Qed.
(** In particular for the statements of a single parse. *)
Corollary C36_print_parsed : forall buf0 sql r e s, parse buf0 sql fresh_env = PRet r e -> In s (e_stmts e) -> exists lines, printStatementInfo s = Some lines.
Proof.
  intros buf0 sql r e s P I. destruct (tokens_total sql) as (ts & T & _). destruct (parse_sound T P) as [[WL _] _]. apply print_ok. eapply wtl_In; [exact WL|exact I].
Qed.
(** What is printed for a statement with a window function, a join, an interval, a parameter and a set operation; EXISTS and IN print without their subqueries. *)
Definition printed (sql : string) : list prints := match parse [] (la sql) fresh_env with PRet _ e => map printStatementInfo (e_stmts e) | _ => [] end.
Example C36_example : printed "SELECT sum(a) OVER (PARTITION BY b ORDER BY c ROWS 2 PRECEDING) AS s FROM t JOIN u ON t.x = ? WHERE EXISTS (SELECT 1)" = [Some
  [Out 0 [PTxt (la "SelectStatement")]; Out 1 [PTxt (la "Fields:")]; Out 2 [PTxt (la "sum")]; Out 3 [PTxt (la "a")]; Out 3 [PTxt (la "OVER")]; Out 4 [PTxt (la "PARTITION BY")]; Out 5 [PTxt (la "b")];
   Out 4 [PTxt (la "ORDER BY")]; Out 5 [PTxt (la "c")]; Out 5 [PTxt (la "ascending")];
   Out 4 [PTxt (la "ROWS"); PTxt (la " BETWEEN "); PInt 2; PTxt (la " "); PTxt (la "PRECEDING"); PTxt (la " AND "); PTxt (la "CURRENT ROW")]; Out 3 [PTxt (la "Alias")]; Out 4 [PTxt (la "s")];
   Out 1 [PTxt (la "Sources:")]; Out 2 [PTxt (la "Join Table")]; Out 3 [PTxt (la "Left")]; Out 4 [PTxt (la "t")]; Out 3 [PTxt (la "Right")]; Out 4 [PTxt (la "u")]; Out 3 [PTxt (la "Join Condition")];
   Out 4 [PTxt (la "=")]; Out 5 [PTxt (la "x")]; Out 6 [PTxt (la "Table:")]; Out 7 [PTxt (la "t")]; Out 5 [PInt 0; PTxt (la "  ")];
   Out 1 [PTxt (la "Search Conditions:")]; Out 2 [PTxt (la "EXISTS")]]].
Proof. vm_compute. reflexivity. Qed.
(** The precondition matters: a SetOperation whose nested select is missing (as in the middle of a parse) cannot be printed. *)
Example C36_null : print_select 10 VNull 0 = None /\ print_ref 10 VUninit 0 = None /\ inprint_str VNull 0 = None.
Proof. repeat split. Qed.
