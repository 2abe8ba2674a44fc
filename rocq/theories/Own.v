(** Ownership accounting: which blocks a value owns, which parameters it contains; weakest preconditions for the machine of
    Heap.v; what [del] and the other releases do.  Proof infrastructure, no code of /repo. *)
From Verif Require Import Base TokenCodes LexModel Ast Heap Typing.
From Coq Require Import ZifyBool ZifyNat ZifyN.
Local Open Scope nat_scope.
Set Implicit Arguments.
Unset Strict Implicit.

(** Induction over values. *)
Section ValInd.
  Variable P : val -> Prop.
  Hypothesis Hnull : P VNull.
  Hypothesis Huninit : P VUninit.
  Hypothesis Hint : forall z, P (VInt z).
  Hypothesis Hbool : forall b, P (VBool b).
  Hypothesis Henum : forall e n, P (VEnum e n).
  Hypothesis Hflt : forall t, P (VFlt t).
  Hypothesis Hstr : forall a s, P (VStr a s).
  Hypothesis Hobj : forall a c fs, Forall (fun p => P (snd p)) fs -> P (VObj a c fs).
  Hypothesis Hvec : forall a l, Forall P l -> P (VVec a l).
  Hypothesis Hrec : forall fs, Forall (fun p => P (snd p)) fs -> P (VRec fs).
  Fixpoint val_ind2 (v : val) : P v :=
    let fields := fix go (fs : list (fld * val)) : Forall (fun p => P (snd p)) fs :=
      match fs return Forall (fun p => P (snd p)) fs with
      | [] => Forall_nil _
      | (f, y) :: r => @Forall_cons _ (fun p : fld * val => P (snd p)) (f, y) r (val_ind2 y) (go r)
      end in
    match v with
    | VNull => Hnull | VUninit => Huninit | VInt z => Hint z | VBool b => Hbool b | VEnum e n => Henum e n
    | VFlt t => Hflt t | VStr a s => Hstr a s
    | VObj a c fs => Hobj a c (fields fs)
    | VVec a l => Hvec a ((fix go (l : list val) : Forall P l :=
        match l return Forall P l with [] => Forall_nil _ | y :: r => @Forall_cons _ P y r (val_ind2 y) (go r) end) l)
    | VRec fs => Hrec (fields fs)
    end.
End ValInd.

(** Inversion of typings. *)
Lemma wt_opt_inv v t : wt v (TOpt t) -> v = VNull \/ wt v t.
Proof. inversion 1; auto. Qed.
Lemma wt_str_inv v : wt v TStr -> exists a s, v = VStr a s.
Proof. inversion 1; eauto. Qed.
Lemma wt_vec_inv v t : wt v (TVec t) -> exists a l, v = VVec a l /\ wtl l t.
Proof. inversion 1; eauto. Qed.
Lemma wt_enum_inv v e l : wt v (TEnum e l) -> exists n, v = VEnum e n /\ In n l.
Proof. inversion 1; eauto. Qed.
Lemma wt_int_inv v : wt v TInt -> exists z, v = VInt z.
Proof. inversion 1; eauto. Qed.
Lemma wt_bool_inv v : wt v TBool -> exists z, v = VBool z.
Proof. inversion 1; eauto. Qed.
Lemma wt_flt_inv v : wt v TFlt -> exists z, v = VFlt z.
Proof. inversion 1; eauto. Qed.
Lemma wt_null_inv v : wt v TNull -> v = VNull.
Proof. inversion 1; auto. Qed.
Lemma wt_uninit_inv v : wt v TUninit -> v = VUninit.
Proof. inversion 1; auto. Qed.
Lemma wt_rec_inv v ts : wt v (TRec ts) -> exists fs, v = VRec fs /\ wts fs ts.
Proof. inversion 1; eauto. Qed.
Lemma wt_obj_inv v l : wt v (TObj l) -> exists a s fs, v = VObj a (fst (shape_def s)) fs /\ In s l /\ wts fs (snd (shape_def s)).
Proof. inversion 1; eauto 8. Qed.
Lemma wts_nil_inv fs : wts fs [] -> fs = [].
Proof. inversion 1; auto. Qed.
Lemma wts_cons_inv fs f t ts : wts fs ((f, t) :: ts) -> exists v fs', fs = (f, v) :: fs' /\ wt v t /\ wts fs' ts.
Proof. inversion 1; eauto 8. Qed.
Lemma wtl_cons_inv v l t : wtl (v :: l) t -> wt v t /\ wtl l t.
Proof. inversion 1; auto. Qed.
Lemma wtl_app l m t : wtl l t -> wtl m t -> wtl (l ++ m) t.
Proof. induction 1; cbn; [auto|]. intro. constructor; auto. Qed.
Lemma wtl_In l t v : wtl l t -> In v l -> wt v t.
Proof. induction 1; intros []; subst; auto. Qed.

(** ** Counting *)
Definition ind (a x : N) : nat := if N.eqb a x then 1%nat else 0%nat.
Lemma ind_refl a : ind a a = 1%nat.
Proof. unfold ind. now rewrite N.eqb_refl. Qed.
Lemma ind_neq a x : a <> x -> ind a x = 0%nat.
Proof. intro H. unfold ind. apply N.eqb_neq in H. now rewrite H. Qed.

(** How often the block [x] occurs in [v]. *)
Fixpoint ca (x : N) (v : val) : nat :=
  match v with
  | VStr a _ => ind a x
  | VObj a _ fs => (ind a x + (fix go (fs : list (fld * val)) := match fs with [] => 0 | (_, y) :: r => ca x y + go r end) fs)%nat
  | VVec a l => (ind a x + (fix go (l : list val) := match l with [] => 0 | y :: r => ca x y + go r end) l)%nat
  | VRec fs => (fix go (fs : list (fld * val)) := match fs with [] => 0 | (_, y) :: r => ca x y + go r end) fs
  | _ => 0%nat
  end.
Fixpoint caf (x : N) (fs : list (fld * val)) : nat := match fs with [] => 0 | (_, y) :: r => ca x y + caf x r end.
Fixpoint cas (x : N) (l : list val) : nat := match l with [] => 0 | y :: r => ca x y + cas x r end.
Lemma ca_obj x a c fs : ca x (VObj a c fs) = (ind a x + caf x fs)%nat.
Proof. cbn. f_equal. induction fs as [|[f y] fs IH]; cbn; congruence. Qed.
Lemma ca_rec x fs : ca x (VRec fs) = caf x fs.
Proof. cbn. induction fs as [|[f y] fs IH]; cbn; congruence. Qed.
Lemma ca_vec x a l : ca x (VVec a l) = (ind a x + cas x l)%nat.
Proof. cbn. f_equal. induction l as [|y l IH]; cbn; congruence. Qed.
Lemma cas_app x l m : cas x (l ++ m) = (cas x l + cas x m)%nat.
Proof. induction l; cbn; [reflexivity|]. lia. Qed.
Lemma cas_rev x l : cas x (rev l) = cas x l.
Proof. induction l; cbn; [reflexivity|]. rewrite cas_app. cbn. lia. Qed.

(** Is this object a parameter expression at address [fst q] with [ival2 = snd q]? *)
Definition is_param (fs : list (fld * val)) : option Z :=
  match lookup F_type fs, lookup F_ival2 fs with
  | Some (VEnum EExprType 7), Some (VInt z) => Some z
  | _, _ => None
  end.
Definition pind (q : N * Z) (a : N) (fs : list (fld * val)) : nat :=
  match is_param fs with Some z => if N.eqb a (fst q) && Z.eqb z (snd q) then 1%nat else 0%nat | None => 0%nat end.
Definition pobj (q : N * Z) (a : N) (c : cls) (fs : list (fld * val)) : nat :=
  match c with CExpr => pind q a fs | _ => 0%nat end.
(** How often the parameter [q] occurs in [v]. *)
Fixpoint cp (q : N * Z) (v : val) : nat :=
  match v with
  | VObj a c fs =>
    (pobj q a c fs + (fix go (fs : list (fld * val)) := match fs with [] => 0 | (_, y) :: r => cp q y + go r end) fs)%nat
  | VVec _ l => (fix go (l : list val) := match l with [] => 0 | y :: r => cp q y + go r end) l
  | VRec fs => (fix go (fs : list (fld * val)) := match fs with [] => 0 | (_, y) :: r => cp q y + go r end) fs
  | _ => 0%nat
  end.
Fixpoint cpf (q : N * Z) (fs : list (fld * val)) : nat := match fs with [] => 0 | (_, y) :: r => cp q y + cpf q r end.
Fixpoint cps (q : N * Z) (l : list val) : nat := match l with [] => 0 | y :: r => cp q y + cps q r end.
Lemma cp_obj q a c fs : cp q (VObj a c fs) = (pobj q a c fs + cpf q fs)%nat.
Proof. cbn. f_equal. induction fs as [|[f y] fs IH]; cbn; congruence. Qed.
Lemma cp_rec q fs : cp q (VRec fs) = cpf q fs.
Proof. cbn. induction fs as [|[f y] fs IH]; cbn; congruence. Qed.
Lemma cp_vec q a l : cp q (VVec a l) = cps q l.
Proof. cbn. induction l; cbn; congruence. Qed.
Lemma cps_app q l m : cps q (l ++ m) = (cps q l + cps q m)%nat.
Proof. induction l; cbn; [reflexivity|]. lia. Qed.
Lemma pobj_le q a c fs : (pobj q a c fs <= ind a (fst q))%nat.
Proof.
  unfold pobj, pind, ind. destruct c; try lia. destruct (is_param fs); [|lia].
  destruct (N.eqb a (fst q)); cbn; [destruct (z =? snd q)%Z|]; lia.
Qed.
Lemma cpf_le q fs : Forall (fun p => (cp q (snd p) <= ca (fst q) (snd p))%nat) fs -> (cpf q fs <= caf (fst q) fs)%nat.
Proof. induction 1 as [|[f y] fs H HF IH]; cbn in *; lia. Qed.
Lemma cp_le_ca q v : (cp q v <= ca (fst q) v)%nat.
Proof.
  induction v as [| | | | | | |a c fs H|a l H|fs H] using val_ind2; try (cbn; lia).
  - rewrite cp_obj, ca_obj. pose proof (pobj_le q a c fs). pose proof (cpf_le H). lia.
  - rewrite cp_vec, ca_vec. induction H; cbn in *; lia.
  - rewrite cp_rec, ca_rec. apply cpf_le. exact H.
Qed.

(** ** The heap predicate: the live blocks are exactly those counted by [f], each once. *)
Fixpoint cntN (x : N) (l : list N) : nat := match l with [] => 0 | y :: r => ind y x + cntN x r end.
Record heap (e : env) (f : N -> nat) : Prop := {
  heap_live : forall x, cntN x (e_live e) = f x;
  heap_one : forall x, (f x <= 1)%nat;
  heap_next : forall x, (1 <= f x)%nat -> (x < e_next e)%N }.
Lemma heap_ext e f g : heap e f -> (forall x, f x = g x) -> heap e g.
Proof.
  intros [A B C] H. split; intro x.
  - now rewrite <- H.
  - now rewrite <- H.
  - rewrite <- H. apply C.
Qed.
Lemma cntN_mem x l : (1 <= cntN x l)%nat <-> memN x l = true.
Proof.
  induction l as [|y l IH]; cbn; [lia|]. unfold ind. rewrite (N.eqb_sym x y).
  destruct (N.eqb y x); cbn; [intuition lia|]. rewrite <- IH. lia.
Qed.
Lemma cntN_remove x a l : memN a l = true -> (cntN x (removeN a l) + ind a x = cntN x l)%nat.
Proof.
  induction l as [|y l IH]; cbn; [discriminate|]. intro H.
  destruct (N.eqb a y) eqn:E; cbn.
  - apply N.eqb_eq in E. subst y. lia.
  - cbn in H. specialize (IH H). lia.
Qed.
Lemma heap_mem e f a : heap e f -> (1 <= f a)%nat -> memN a (e_live e) = true.
Proof. intros [A _ _] H. rewrite <- A in H. now apply cntN_mem. Qed.

(** Everything of the machine except heap and error fields. *)
Definition rest_eq (e e' : env) : Prop :=
  e_stmts e' = e_stmts e /\ e_params e' = e_params e /\ e_plist e' = e_plist e /\ e_loc e' = e_loc e /\
  e_lpos e' = e_lpos e.
Definition err_eq (e e' : env) : Prop :=
  e_valid e' = e_valid e /\ e_msg e' = e_msg e /\ e_line e' = e_line e /\ e_col e' = e_col e.
Definition same (e e' : env) : Prop := rest_eq e e' /\ err_eq e e'.
Lemma same_refl e : same e e. Proof. repeat split. Qed.
Lemma same_trans a b c : same a b -> same b c -> same a c.
Proof. unfold same, rest_eq, err_eq. intuition congruence. Qed.
Lemma rest_refl e : rest_eq e e. Proof. repeat split. Qed.
Lemma rest_trans a b c : rest_eq a b -> rest_eq b c -> rest_eq a c.
Proof. unfold rest_eq. intuition congruence. Qed.

(** ** Weakest preconditions.  Undefined behaviour is excluded. *)
Definition wp {A} (m : M A) (e : env) (Q : A -> env -> Prop) (R : env -> Prop) : Prop :=
  match m e with ROk a e' => Q a e' | RErr e' => R e' | RUB _ => False end.
Lemma wp_ret A (a : A) e (Q : A -> env -> Prop) (R : env -> Prop) : Q a e -> wp (ret a) e Q R.
Proof. exact (fun H => H). Qed.
Lemma wp_bind A B (m : M A) (k : A -> M B) e (Q : B -> env -> Prop) (R : env -> Prop) :
  wp m e (fun a e' => wp (k a) e' Q R) R -> wp (bind m k) e Q R.
Proof. unfold wp, bind. destruct (m e); auto. Qed.
Lemma wp_mono A (m : M A) e (Q Q' : A -> env -> Prop) (R R' : env -> Prop) :
  wp m e Q R -> (forall a e', Q a e' -> Q' a e') -> (forall e', R e' -> R' e') -> wp m e Q' R'.
Proof. unfold wp. destruct (m e); auto. Qed.
Lemma wp_assoc A B C (m : M A) (k : A -> M B) (h : B -> M C) e (Q : C -> env -> Prop) (R : env -> Prop) :
  wp (bind m (fun a => bind (k a) h)) e Q R -> wp (bind (bind m k) h) e Q R.
Proof. unfold wp, bind. destruct (m e); auto. Qed.

Definition in_heap (e : env) (f : N -> nat) (e' : env) (g : N -> nat) : Prop := heap e' g /\ same e e'.

Lemma alloc_spec e f : heap e f -> f (e_next e) = 0%nat /\
  exists e', alloc e = ROk (e_next e) e' /\ heap e' (fun x => ind (e_next e) x + f x)%nat /\ same e e'.
Proof.
  intro H. destruct H as [A B C].
  assert (F : f (e_next e) = 0%nat).
  { specialize (C (e_next e)). pose proof (B (e_next e)). destruct (f (e_next e)); [reflexivity|]. lia. }
  split; [exact F|]. eexists. split; [reflexivity|]. split; [|repeat split].
  split; cbn [e_live e_next set_heap].
  - intro x. cbn [cntN]. now rewrite A.
  - intro x. unfold ind. destruct (N.eqb (e_next e) x) eqn:E; [apply N.eqb_eq in E; subst; lia|]. specialize (B x). lia.
  - intro x. unfold ind. destruct (N.eqb (e_next e) x) eqn:E; [apply N.eqb_eq in E; subst; lia|]. intro H.
    specialize (C x). cbn in H. specialize (C H). lia.
Qed.
Lemma release_spec e f a : heap e f -> (1 <= f a)%nat ->
  exists e', release a e = ROk tt e' /\ (forall g, (forall x, f x = (ind a x + g x)%nat) -> heap e' g) /\ same e e'.
Proof.
  intros H HA. pose proof (heap_mem H HA) as M. unfold release. rewrite M. eexists. split; [reflexivity|].
  split; [|repeat split]. intros g HG. destruct H as [A B C]. split; cbn [e_live e_next set_heap].
  - intro x. pose proof (@cntN_remove x a (e_live e) M). specialize (A x). specialize (HG x). lia.
  - intro x. specialize (B x). specialize (HG x). lia.
  - intros x Hx. apply C. specialize (HG x). lia.
Qed.
Lemma check_spec e f a : heap e f -> (1 <= f a)%nat -> check a e = ROk tt e.
Proof. intros H HA. unfold check. now rewrite (heap_mem H HA). Qed.

(** ** What the releasing functions free. *)
Definition owned_str (v : val) : Prop := match v with VNull => True | VStr _ _ => True | _ => False end.
Lemma free_spec v : owned_str v -> forall e f, heap e (fun x => ca x v + f x)%nat ->
  exists e', free_ v e = ROk tt e' /\ heap e' f /\ same e e'.
Proof.
  intros O e f H. destruct v; try destruct O; cbn [free_].
  - exists e. split; [reflexivity|]. split; [|apply same_refl]. eapply heap_ext; [exact H|]. intro; reflexivity.
  - destruct (release_spec (a:=a) H) as (e' & E & G & S).
    { cbn [ca]. rewrite ind_refl. lia. }
    exists e'. split; [exact E|]. split; [|exact S]. apply G. reflexivity.
Qed.
Lemma free_all_spec l : Forall owned_str l -> forall e f, heap e (fun x => cas x l + f x)%nat ->
  exists e', free_all l e = ROk tt e' /\ heap e' f /\ same e e'.
Proof.
  induction 1 as [|v l HV HL IH]; intros e f H; cbn [free_all].
  - exists e. split; [reflexivity|]. split; [|apply same_refl]. eapply heap_ext; [exact H|]. reflexivity.
  - cbn [cas] in H. destruct (@free_spec v HV e (fun x => cas x l + f x)%nat) as (e1 & E1 & H1 & S1).
    { eapply heap_ext; [exact H|]. intro x. cbn. lia. }
    destruct (IH e1 f H1) as (e2 & E2 & H2 & S2). exists e2. unfold bind. rewrite E1. split; [exact E2|].
    split; [exact H2|]. eapply same_trans; eassumption.
Qed.
Definition owned_strs (v : val) : Prop :=
  match v with VNull => True | VVec _ l => Forall owned_str l | _ => False end.
Definition frees (m : M unit) (g : N -> nat) : Prop :=
  forall e f, heap e (fun x => g x + f x)%nat -> exists e', m e = ROk tt e' /\ heap e' f /\ same e e'.
Lemma frees_ext m g h : frees m g -> (forall x, g x = h x) -> frees m h.
Proof.
  intros F E e f H. apply F. eapply heap_ext; [exact H|]. intro x. cbn. now rewrite E.
Qed.
Lemma frees_ret g : (forall x, g x = 0%nat) -> frees (ret tt) g.
Proof.
  intros Z e f H. exists e. split; [reflexivity|]. split; [|apply same_refl]. eapply heap_ext; [exact H|].
  intro x. cbn. now rewrite Z.
Qed.
Lemma frees_seq m1 m2 g1 g2 : frees m1 g1 -> frees m2 g2 -> frees (m1 ;; m2) (fun x => g1 x + g2 x)%nat.
Proof.
  intros F1 F2 e f H. destruct (F1 e (fun x => g2 x + f x)%nat) as (e1 & E1 & H1 & S1).
  { eapply heap_ext; [exact H|]. intro x. cbn. lia. }
  destruct (F2 e1 f H1) as (e2 & E2 & H2 & S2). exists e2. unfold bind. rewrite E1. split; [exact E2|].
  split; [exact H2|]. eapply same_trans; eassumption.
Qed.
Lemma frees_check a m g : (1 <= g a)%nat -> frees m g -> frees (check a ;; m) g.
Proof.
  intros P F e f H. unfold bind. rewrite (check_spec (a:=a) H) by lia. now apply F.
Qed.
Lemma frees_release a : frees (release a) (ind a).
Proof.
  intros e f H. destruct (release_spec (a:=a) H) as (e' & E & G & S); [rewrite ind_refl; lia|].
  exists e'. split; [exact E|]. split; [|exact S]. apply G. reflexivity.
Qed.
Lemma free_frees v : owned_str v -> frees (free_ v) (fun x => ca x v).
Proof. intros H e f. now apply free_spec. Qed.
Lemma free_all_frees l : Forall owned_str l -> frees (free_all l) (fun x => cas x l).
Proof. intros H e f. now apply free_all_spec. Qed.
Lemma free_vec_frees v : owned_strs v -> frees (free_vec v) (fun x => ca x v).
Proof.
  intros O. destruct v; try destruct O; cbn [free_vec]; try (apply frees_ret; reflexivity).
  - apply frees_check; [rewrite ca_vec, ind_refl; lia|]. eapply frees_ext.
    + apply frees_seq; [apply (free_all_frees (l := [])); constructor|apply frees_release].
    + intro x. rewrite ca_vec. cbn. lia.
  - apply frees_check; [rewrite ca_vec, ind_refl; lia|]. eapply frees_ext.
    + apply frees_seq; [apply (free_all_frees (l := x :: l)); constructor; assumption|apply frees_release].
    + intro y. rewrite ca_vec. cbn. lia.
Qed.

(** [del] in terms of named loops. *)
Definition del_members (c : cls) : list (fld * val) -> M unit :=
  fix members (fs : list (fld * val)) : M unit :=
       match fs with
       | [] => ret tt
       | (f, x) :: fs' =>
         match dtor_how c f with
         | HNone => ret tt
         | HFree => free_ x
         | HDel => del x
         | HVecDel =>
           match x with
           | VNull => ret tt
           | VVec b l =>
             check b ;;
             (fix elems (l : list val) : M unit :=
                match l with [] => ret tt | y :: l' => del y ;; elems l' end) l ;;
             release b
           | VUninit => fail UUninit
           | _ => fail UBadValue
           end
         | HVecFree => free_vec x
         | HVecFree1 => match x with VNull => fail UNullDeref | _ => free_vec x end
         | HVecPlain => del_block x
         | HLockings =>
           match x with
           | VNull => ret tt
           | VVec b l =>
             check b ;;
             (fix elems (l : list val) : M unit :=
                match l with [] => ret tt | y :: l' => del_locking y ;; elems l' end) l ;;
             release b
           | VUninit => fail UUninit
           | _ => fail UBadValue
           end
         | HUpdates =>
           match x with
           | VNull => ret tt
           | VVec b l =>
             check b ;;
             (fix elems (l : list val) : M unit :=
                match l with
                | [] => ret tt
                | y :: l' =>
                  match y with
                  | VObj d CUpdateClause us =>
                    check d ;;
                    (fix upd (us : list (fld * val)) : M unit :=
                       match us with
                       | [] => ret tt
                       | (F_column, z) :: us' => free_ z ;; upd us'
                       | (F_value, z) :: us' => del z ;; upd us'
                       | _ :: us' => upd us'
                       end) us ;;
                    release d
                  | VNull => fail UNullDeref
                  | _ => fail UBadValue
                  end ;;
                  elems l'
                end) l ;;
             release b
           | VUninit => fail UUninit
           | _ => fail UBadValue
           end
         end ;;
         members fs'
       end.
Lemma del_obj_eq a c fs : del (VObj a c fs) = (check a ;; del_members c fs ;; release a).
Proof. reflexivity. Qed.

(** Types whose values [del] releases completely. *)
Definition good (s : shape) : bool :=
  match s with YLock | YUpd | YCCons | YPairCsv => false | _ => true end.
Definition scalar (t : ty) : bool :=
  match t with
  | TUninit | TInt | TBool | TFlt | TEnum _ _ | TNull => true
  | TRec [(_, TEnum _ _); (_, TInt); (_, TInt); (_, TInt)] => true
  | _ => false
  end.
Fixpoint del_ty (t : ty) : bool :=
  match t with TNull => true | TOpt t' => del_ty t' | TObj l => forallb good l | _ => false end.
Definition str_ty (t : ty) : bool := match t with TNull | TStr | TOpt TStr => true | _ => false end.
Definition field_del (h : how) (t : ty) : bool :=
  match h with
  | HNone => scalar t
  | HFree => str_ty t
  | HDel => del_ty t
  | HVecDel => match t with TNull => true | TVec t' | TOpt (TVec t') => del_ty t' | _ => false end
  | HVecFree => match t with TNull => true | TVec TStr | TOpt (TVec TStr) => true | _ => false end
  | HVecFree1 => match t with TVec TStr => true | _ => false end
  | HVecPlain => match t with TVec (TEnum _ _) => true | _ => false end
  | HLockings => match t with TNull => true | TOpt (TVec (TObj [YLock])) => true | _ => false end
  | HUpdates => match t with TVec (TObj [YUpd]) => true | _ => false end
  end.
Definition fields_del (c : cls) (l : list (fld * ty)) : bool := forallb (fun p => field_del (dtor_how c (fst p)) (snd p)) l.
Lemma good_shapes s : good s = true -> fields_del (fst (shape_def s)) (snd (shape_def s)) = true.
Proof.
  intro H.
  assert (A : forallb (fun s => negb (good s) || fields_del (fst (shape_def s)) (snd (shape_def s))) all_shapes = true)
    by (vm_compute; reflexivity).
  rewrite forallb_forall in A. specialize (A s (all_shapes_In s)). now rewrite H in A.
Qed.

Lemma scalar_ca t v : scalar t = true -> wt v t -> forall x, ca x v = 0%nat.
Proof.
  intros S W x. destruct t as [| | | | | |? ?|t|t|l|l]; try discriminate S; try (inversion W; subst; reflexivity).
  destruct l as [|[f1 t1] l]; try discriminate S. destruct t1; try discriminate S.
  destruct l as [|[f2 t2] l]; try discriminate S. destruct t2; try discriminate S.
  destruct l as [|[f3 t3] l]; try discriminate S. destruct t3; try discriminate S.
  destruct l as [|[f4 t4] l]; try discriminate S. destruct t4; try discriminate S.
  destruct l; try discriminate S.
  inversion W as [| | | | | | | | | |fs ts W1|]; subst.
  repeat match goal with H : wts _ _ |- _ => inversion H; clear H; subst end.
  repeat match goal with H : wt _ TInt |- _ => inversion H; clear H; subst
                       | H : wt _ (TEnum _ _) |- _ => inversion H; clear H; subst end.
  reflexivity.
Qed.
Lemma str_ty_owned t v : str_ty t = true -> wt v t -> owned_str v.
Proof.
  intros S W. destruct t as [| | | | | |? ?|t|t|l|l]; try discriminate S; try (inversion W; subst; exact I).
  destruct t; try discriminate S. apply wt_opt_inv in W as [->|W]; [exact I|]. apply wt_str_inv in W as (? & ? & ->). exact I.
Qed.
Lemma wtl_str l : wtl l TStr -> Forall owned_str l.
Proof.
  induction l as [|v l IH]; intro H; [constructor|]. apply wtl_cons_inv in H as [H1 H]. constructor; [|auto]. apply wt_str_inv in H1 as (? & ? & ->). exact I.
Qed.
Lemma strs_owned v t : match t with TNull | TVec TStr | TOpt (TVec TStr) => true | _ => false end = true -> wt v t ->
  owned_strs v.
Proof.
  intros S W. destruct t as [| | | | | |? ?|t|t|l|l]; try discriminate S.
  - inversion W; subst; exact I.
  - destruct t as [| | | | | |? ?|?|t|l|l]; try discriminate S. destruct t; try discriminate S.
    apply wt_opt_inv in W as [->|W]; [exact I|]. apply wt_vec_inv in W as (? & ? & -> & W). cbn. now apply wtl_str.
  - destruct t; try discriminate S. apply wt_vec_inv in W as (? & ? & -> & W). cbn. now apply wtl_str.
Qed.

(** Size of a value, for the induction. *)
Fixpoint vsize (v : val) : nat :=
  match v with
  | VObj _ _ fs => S ((fix go (fs : list (fld * val)) := match fs with [] => 0 | (_, y) :: r => vsize y + go r end) fs)%nat
  | VVec _ l => S ((fix go (l : list val) := match l with [] => 0 | y :: r => vsize y + go r end) l)%nat
  | VRec fs => S ((fix go (fs : list (fld * val)) := match fs with [] => 0 | (_, y) :: r => vsize y + go r end) fs)%nat
  | _ => 1%nat
  end.
Lemma frees_elems (d : val -> M unit) l : Forall (fun y => frees (d y) (fun x => ca x y)) l ->
  frees ((fix elems (l : list val) : M unit := match l with [] => ret tt | y :: l' => d y ;; elems l' end) l)
        (fun x => cas x l).
Proof.
  induction 1 as [|y l H HL IH]; [apply frees_ret; reflexivity|]. apply frees_seq; assumption.
Qed.
Lemma frees_vec_block b l m : frees m (fun x => cas x l) ->
  frees (check b ;; m ;; release b) (fun x => ca x (VVec b l)).
Proof.
  intro F. apply frees_check; [rewrite ca_vec, ind_refl; lia|]. eapply frees_ext.
  - apply frees_seq; [exact F|apply frees_release].
  - intro x. rewrite ca_vec. lia.
Qed.
Lemma del_locking_frees v : wt v (TObj [YLock]) -> frees (del_locking v) (fun x => ca x v).
Proof.
  intro W. apply wt_obj_inv in W as (a & s & fs & -> & [<-|[]] & W). cbn in W.
  apply wts_cons_inv in W as (m & fs1 & -> & WM & W). apply wts_cons_inv in W as (p & fs2 & -> & WP & W).
  apply wts_cons_inv in W as (tb & fs3 & -> & WT & W). apply wts_nil_inv in W as ->.
  apply wt_enum_inv in WM as (n1 & -> & _). apply wt_enum_inv in WP as (n2 & -> & _).
  assert (O : owned_strs tb) by (eapply strs_owned; [|exact WT]; reflexivity).
  assert (NU : tb <> VUninit) by (destruct tb; try destruct O; discriminate).
  intros e f H.
  assert (G : getf F_tables (VObj a (fst (shape_def YLock))
    [(F_rowLockMode, VEnum ERowLockMode n1); (F_rowLockWaitPolicy, VEnum ERowLockWaitPolicy n2); (F_tables, tb)]) e = ROk tb e).
  { cbn [getf]. unfold bind. rewrite (check_spec (a:=a) H) by (rewrite ca_obj, ind_refl; lia).
    cbn. destruct tb; congruence || reflexivity. }
  unfold del_locking. unfold bind at 1. rewrite G.
  cbn [del_block].
  apply (frees_seq (free_vec_frees O) (frees_release (a:=a))).
  eapply heap_ext; [exact H|]. intro x. cbn. lia.
Qed.

Lemma members_frees n c ts : (forall v t, (vsize v <= n)%nat -> wt v t -> del_ty t = true -> frees (del v) (fun x => ca x v)) ->
  forall fs, fields_del c ts = true -> wts fs ts -> Forall (fun p => (vsize (snd p) <= n)%nat) fs ->
  frees (del_members c fs) (fun x => caf x fs).
Proof.
  intro IH. induction ts as [|[f t] ts IHts]; intros fs D W1 SZ.
    + inversion W1; subst. apply frees_ret. reflexivity.
    + inversion W1 as [|f' v t' fs' ts' WV WF]; subst. inversion SZ as [|? ? Sv Sf]; subst. cbn [snd] in Sv.
      cbn [fields_del forallb fst snd] in D. apply andb_prop in D as [D1 D2].
      specialize (IHts fs' D2 WF Sf). cbn [del_members caf]. fold (del_members c). apply frees_seq; [|exact IHts].
      destruct (dtor_how c f); cbn [field_del] in D1.
      * apply frees_ret. eapply scalar_ca; eassumption.
      * apply free_frees. eapply str_ty_owned; eassumption.
      * eapply IH; eassumption.
      * (* HVecDel *)
        assert (K : forall b l t0, v = VVec b l -> wtl l t0 -> del_ty t0 = true -> Forall (fun y => frees (del y) (fun x => ca x y)) l).
        { intros b l t0 -> WL DT. cbn [vsize] in Sv. clear -WL DT Sv IH. revert Sv.
          induction l as [|y l IHl]; intro Sv; constructor; inversion WL; subst.
          - eapply IH; [|eassumption|exact DT]. lia.
          - apply IHl; [assumption|lia]. }
        destruct t as [| | | | | |? ?|t|t|?|?]; try discriminate D1.
        -- inversion WV; subst. apply frees_ret. reflexivity.
        -- destruct t as [| | | | | |? ?|?|t|?|?]; try discriminate D1. inversion WV as [| | | | | | |?|? ? WV1| | |]; subst.
           { apply frees_ret. reflexivity. }
           inversion WV1; subst. apply frees_vec_block, frees_elems. eapply K; [reflexivity|eassumption|assumption].
        -- inversion WV; subst. apply frees_vec_block, frees_elems. eapply K; [reflexivity|eassumption|assumption].
      * apply free_vec_frees. eapply strs_owned; eassumption.
      * destruct t as [| | | | | |? ?|t|t|?|?]; try discriminate D1. destruct t; try discriminate D1.
        inversion WV; subst. apply free_vec_frees. cbn. now apply wtl_str.
      * destruct t as [| | | | | |? ?|t|t|?|?]; try discriminate D1. destruct t as [| | | | | |e0 l0|?|?|?|?]; try discriminate D1.
        apply wt_vec_inv in WV as (b & l & -> & WL). cbn [del_block]. eapply frees_ext; [apply frees_release|].
        intro x. rewrite ca_vec.
        assert (Z : cas x l = 0%nat); [|lia]. clear -WL. induction l as [|y l IHl]; [reflexivity|].
        apply wtl_cons_inv in WL as [WY WL]. apply wt_enum_inv in WY as (? & -> & _). cbn. auto.
      * (* lockings *)
        destruct t as [| | | | | |? ?|t|t|?|?]; try discriminate D1.
        { inversion WV; subst. apply frees_ret. reflexivity. }
        destruct t as [| | | | | |? ?|?|t|?|?]; try discriminate D1. destruct t as [| | | | | |? ?|?|?|?|l]; try discriminate D1.
        destruct l as [|s l]; try discriminate D1. destruct s; try discriminate D1. destruct l; try discriminate D1.
        apply wt_opt_inv in WV as [->|WV]; [apply frees_ret; reflexivity|]. apply wt_vec_inv in WV as (b & l & -> & WL).
        apply frees_vec_block, frees_elems. clear -WL. induction l as [|y l IHl]; constructor; apply wtl_cons_inv in WL as [WY WL]; auto.
        now apply del_locking_frees.
      * (* updates *)
        destruct t as [| | | | | |? ?|t|t|?|?]; try discriminate D1. destruct t as [| | | | | |? ?|?|?|?|l]; try discriminate D1.
        destruct l as [|s l]; try discriminate D1. destruct s; try discriminate D1. destruct l; try discriminate D1.
        apply wt_vec_inv in WV as (b & l & -> & WL). apply frees_vec_block.
        clear -WL Sv IH. cbn [vsize] in Sv. revert Sv. induction l as [|y l IHl]; intro Sv; [apply frees_ret; reflexivity|].
        apply wtl_cons_inv in WL as [WY WL]. cbn [cas]. apply frees_seq; [|apply IHl; [assumption|lia]].
        apply wt_obj_inv in WY as (d & s & fs & -> & [<-|[]] & W1). cbn in W1.
        apply wts_cons_inv in W1 as (col & fs1 & -> & WC & W1). apply wts_cons_inv in W1 as (value & fs2 & -> & WX & W1).
        apply wts_nil_inv in W1 as ->. cbn [shape_def fst].
        apply frees_check; [rewrite ca_obj, ind_refl; lia|].
        eapply frees_ext.
        -- apply frees_seq; [|apply frees_release]. apply frees_seq; [apply free_frees; inversion WC; exact Logic.I|].
           apply frees_seq; [|apply (frees_ret (g := fun _ => 0%nat)); reflexivity].
           eapply IH; [|exact WX|reflexivity]. cbn [vsize] in Sv. lia.
        -- intro x. rewrite ca_obj. cbn. lia.
Qed.
Lemma del_sized n : forall v t, (vsize v <= n)%nat -> wt v t -> del_ty t = true -> frees (del v) (fun x => ca x v).
Proof.
  induction n as [|n IH]; intros v t HS W D; [destruct v; cbn in HS; lia|].
  induction t as [| | | | | |? ?|t IHt|t IHt|l|l]; try discriminate D.
  - inversion W; subst. apply frees_ret. reflexivity.
  - inversion W; subst; [apply frees_ret; reflexivity|]. auto.
  - inversion W as [| | | | | | | | | | |a s fs l' I W1]; subst. rewrite del_obj_eq.
    cbn [del_ty] in D. rewrite forallb_forall in D. specialize (D _ I). apply good_shapes in D.
    set (c := fst (shape_def s)) in *. set (ts := snd (shape_def s)) in *. clearbody c ts. clear I W s l.
    assert (SZ : Forall (fun p => (vsize (snd p) <= n)%nat) fs).
    { cbn [vsize] in HS. clear -HS. revert HS. generalize n. clear n. induction fs as [|[f y] fs IH]; intros n H; constructor.
      - cbn. lia.
      - apply IH. lia. }
    apply frees_check; [rewrite ca_obj, ind_refl; lia|].
    eapply frees_ext with (g := fun x => (caf x fs + ind a x)%nat); [|intro x; rewrite ca_obj; lia].
    apply frees_seq; [|apply frees_release].
    eapply members_frees; eassumption.
Qed.
Lemma del_frees v t : wt v t -> del_ty t = true -> frees (del v) (fun x => ca x v).
Proof. intros. eapply del_sized; [reflexivity|eassumption|assumption]. Qed.
(** Same for an object whose field types are given directly. *)
Lemma vsize_fields fs : exists n, Forall (fun p : fld * val => (vsize (snd p) <= n)%nat) fs.
Proof.
  induction fs as [|p fs (n & IH)]; [exists 0%nat; constructor|]. exists (n + vsize (snd p))%nat. constructor; [lia|].
  eapply Forall_impl; [|exact IH]. cbn. intros. lia.
Qed.
Lemma del_obj_frees a c fs ts : wts fs ts -> fields_del c ts = true -> frees (del (VObj a c fs)) (fun x => ca x (VObj a c fs)).
Proof.
  intros W D. rewrite del_obj_eq. apply frees_check; [rewrite ca_obj, ind_refl; lia|].
  eapply frees_ext with (g := fun x => (caf x fs + ind a x)%nat); [|intro x; rewrite ca_obj; lia].
  apply frees_seq; [|apply frees_release]. destruct (vsize_fields fs) as [n HN].
  eapply members_frees with (n := n); try eassumption. intros. eapply del_frees; eassumption.
Qed.
(** An object without destructor: only its block is released. *)
Lemma del_plain_frees a c fs : forallb (fun p => match dtor_how c (fst p) with HNone => true | _ => false end) fs = true ->
  frees (del (VObj a c fs)) (ind a).
Proof.
  intro H. rewrite del_obj_eq. apply frees_check; [rewrite ind_refl; lia|].
  eapply frees_ext with (g := fun x => (0 + ind a x)%nat); [|reflexivity].
  apply frees_seq; [|apply frees_release]. induction fs as [|[f v] fs IH]; [apply frees_ret; reflexivity|].
  cbn [forallb fst] in H. apply andb_prop in H as [H1 H2]. cbn [del_members]. fold (del_members c).
  destruct (dtor_how c f); try discriminate H1.
  eapply frees_ext with (g := fun x => (0 + 0)%nat); [|reflexivity]. apply frees_seq; [apply frees_ret; reflexivity|auto].
Qed.
Lemma del_vec_frees a l : frees (del (VVec a l)) (ind a).
Proof. cbn [del]. apply frees_release. Qed.
Lemma del_all_frees l t : wtl l t -> del_ty t = true -> frees (del_all l) (fun x => cas x l).
Proof.
  intros W D. induction l as [|v l IH]; cbn [del_all cas]; [apply frees_ret; reflexivity|].
  apply wtl_cons_inv in W as [WV W]. apply frees_seq; [eapply del_frees; eassumption|auto].
Qed.
Lemma wp_frees m g e f (Q : unit -> env -> Prop) (R : env -> Prop) :
  frees m g -> heap e (fun x => g x + f x)%nat -> (forall e', heap e' f -> same e e' -> Q tt e') -> wp m e Q R.
Proof.
  intros F H K. destruct (F e f H) as (e' & E & H' & S). unfold wp. rewrite E. auto.
Qed.
