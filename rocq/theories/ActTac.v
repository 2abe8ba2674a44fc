(** What every grammar action is proved to do, and the tactics for these proofs.  No code of /repo. *)
From Verif Require Export Base TokenCodes LexModel Ast Heap Actions ParseModel GrammarDef Grammar Typing Own Sem.
From Coq Require Import ZifyBool ZifyNat ZifyN.
Local Open Scope nat_scope.
Set Implicit Arguments.
Unset Strict Implicit.

(** ** The specification of an action *)
Definition typed (args : list val) (rhs : list N) : Prop := Forall2 wt args (map symty rhs).
(** An error message: none, or an owned string. *)
Definition msg_ok (m : val) : Prop := match m with VNull | VStr _ _ => True | _ => False end.
(** The parameter [q = (address, index)] is in yyloc.param_list. *)
Definition listed (e : env) (q : N * Z) : nat :=
  if (0 <=? snd q)%Z then
    match nth_error (e_plist e) (Z.to_nat (snd q)) with Some a => ind a (fst q) | None => 0 end
  else 0.
(** A message was set at the current location. *)
Definition reported (e e' : env) : Prop :=
  e_valid e' = false /\ (exists a s, e_msg e' = VStr a s) /\ e_line e' = VInt (l_fl (e_loc e)) /\ e_col e' = VInt (l_fc (e_loc e)).
(** Productions whose action loses memory even if it succeeds: array_index drops $3, CREATE INDEX drops the schema. *)
Definition leaks (r : N) (args : list val) : bool :=
  match r with
  | 274%N => true
  | 58%N => match nth 5 args VNull with VRec ((F_schema, VNull) :: _) => false | _ => true end
  | _ => false
  end.
(** [f] counts [n] blocks. *)
Definition lost_blocks (f : N -> nat) (n : nat) : Prop := exists l, (forall x, f x = cntN x l) /\ List.length l = n.
Lemma lost_blocks_none : lost_blocks (fun _ => 0) 0.
Proof. exists []. split; reflexivity. Qed.
Lemma lost_blocks_one a : lost_blocks (ind a) 1.
Proof. exists [a]. split; [intro x; cbn [cntN]; lia|reflexivity]. Qed.
Lemma lost_blocks_ext f g n m : lost_blocks f n -> (forall x, f x = g x) -> n = m -> lost_blocks g m.
Proof. intros (l & E & L) F <-. exists l. split; [intro x; now rewrite <- F|exact L]. Qed.
Lemma lost_blocks_plus f g n m : lost_blocks f n -> lost_blocks g m -> lost_blocks (fun x => f x + g x) (n + m).
Proof.
  intros (l & E & L) (k & F & K). exists (l ++ k). split; [|rewrite app_length; lia]. intro x. rewrite E, F. clear.
  induction l as [|a l IH]; cbn [app cntN]; lia.
Qed.
Lemma lost_blocks_zero f n : lost_blocks f n -> n = 0 -> forall x, f x = 0.
Proof. intros (l & E & L) -> x. destruct l; [|discriminate L]. apply E. Qed.
Definition leak_n (r : N) (args : list val) : nat := if leaks r args then 1 else 0.
Definition lpos_after (r : N) (p : lexpos) : lexpos :=
  match r with 3%N | 4%N => mkPos (fl p) (fc p) (ll p) (lc p) (total p) 0 | _ => p end.
(** The string length recorded by statement_list. *)
Definition last_len (v : val) : val := fget F_stringLength (last (elems v) VNull).

Record act_ok (r lhs : N) (args : list val) (e : env) (f : N -> nat) (v : val) (e' : env) : Prop := {
  ao_wt : wt v (symty lhs);
  ao_heap : exists lost, heap e' (fun x => ca x v + ca x (e_msg e') + lost x + f x) /\
    (e_msg e = VNull \/ e_msg e' = e_msg e -> lost_blocks lost (leak_n r args));
  ao_msg : err_eq e e' \/ (r = 66%N /\ reported e e');
  ao_msg_ok : msg_ok (e_msg e');
  ao_stmts : e_stmts e' = e_stmts e;
  ao_params : e_params e' = e_params e;
  ao_loc : e_loc e' = e_loc e;
  ao_lpos : e_lpos e' = lpos_after r (e_lpos e);
  ao_plist : exists l, e_plist e' = e_plist e ++ l /\ List.length l = (if N.eqb r 298 then 1 else 0);
  ao_cp : forall q, cp q v + listed e q = cps q args + listed e' q;
  ao_sem : e_msg e' = e_msg e -> asem r (List.length (e_plist e)) (map erase args) = Some (erase v);
  ao_bad : e_msg e' <> e_msg e -> asem r (List.length (e_plist e)) (map erase args) = None }.
Record act_err (r : N) (args : list val) (e : env) (f : N -> nat) (e' : env) : Prop := {
  ae_heap : exists lost, heap e' (fun x => ca x (e_msg e') + lost x + f x) /\
    (r <> 55%N -> e_msg e = VNull -> forall x, lost x = 0);
  ae_msg : (r = 56%N /\ err_eq e e' /\ e_msg e <> VNull) \/ (reported e e' /\ asem r (List.length (e_plist e)) (map erase args) = None);
  ae_stmts : e_stmts e' = e_stmts e;
  ae_params : e_params e' = e_params e;
  ae_lpos : e_lpos e' = e_lpos e }.
(** Overflow in an interval string. *)
Definition act_ub (r : N) (args : list val) (u : ub) : Prop :=
  u = UScanf /\ exists a s, nth_error args 1 = Some (VStr a s) /\
    ((r = 296%N /\ scan_interval1 s = SUB) \/ (r = 297%N /\ scan_interval2 s = SUB)).
Definition act_spec (r lhs : N) (rhs : list N) : Prop :=
  forall args e f, typed args rhs -> msg_ok (e_msg e) -> heap e (fun x => cas x args + ca x (e_msg e) + f x) ->
  match act r args e with
  | ROk v e' => act_ok r lhs args e f v e'
  | RErr e' => act_err r args e f e'
  | RUB u => act_ub r args u
  end.

(** Actions without semantic checks and without leaks. *)
Definition plain (r lhs : N) (rhs : list N) : Prop :=
  forall args e F, typed args rhs -> heap e (fun x => cas x args + F x) ->
  wp (act r args) e
     (fun v e' => wt v (symty lhs) /\ heap e' (fun x => ca x v + F x) /\ same e e' /\ (forall q, cp q v = cps q args) /\
                  forall k, asem r k (map erase args) = Some (erase v))
     (fun _ => False).
Definition ordinary (r : N) : bool := negb (existsb (N.eqb r) [2; 3; 4; 298; 274; 58]%N).
Lemma ordinary_leaks r args : ordinary r = true -> leak_n r args = 0.
Proof.
  unfold ordinary, leak_n, leaks. intro O. destruct (N.eq_dec r 274) as [->|]; [discriminate O|]. destruct (N.eq_dec r 58) as [->|]; [discriminate O|].
  destruct r as [|p]; [reflexivity|]. repeat (destruct p as [p|p|]; try reflexivity; try congruence).
Qed.
Lemma plain_spec r lhs rhs : ordinary r = true -> plain r lhs rhs -> act_spec r lhs rhs.
Proof.
  intros O P args e f T MO H. specialize (P args e (fun x => ca x (e_msg e) + f x) T).
  unfold wp in P. destruct (act r args e) as [v e'|e'|u].
  - destruct P as (W & H' & S & C & D); [eapply heap_ext; [exact H|]; intro x; cbn; lia|].
    destruct S as ((S1 & S2 & S3 & S4 & S5) & S6). pose proof S6 as (S7 & S8 & S9 & S10).
    assert (N298 : N.eqb r 298 = false).
    { unfold ordinary in O. cbn [existsb] in O. rewrite !orb_false_r in O. apply negb_true_iff in O.
      repeat (apply orb_false_iff in O as [? O]; try assumption). }
    constructor; auto.
    + exists (fun _ => 0). split; [|intros _; rewrite (ordinary_leaks _ O); exact lost_blocks_none]. eapply heap_ext; [exact H'|]. intro x. cbn. rewrite S8. lia.
    + rewrite S8. exact MO.
    + rewrite S5. unfold lpos_after, ordinary in *. cbn [existsb] in O.
      destruct (N.eq_dec r 3) as [->|]; [discriminate O|]. destruct (N.eq_dec r 4) as [->|]; [discriminate O|].
      destruct r as [|p]; [reflexivity|]. repeat (destruct p as [p|p|]; try reflexivity; try congruence).
    + exists []. rewrite app_nil_r, N298. auto.
    + intro q. unfold listed. rewrite S3, C. reflexivity.
    + congruence.
  - destruct P. eapply heap_ext; [exact H|]. intro x. cbn. lia.
  - destruct P. eapply heap_ext; [exact H|]. intro x. cbn. lia.
Qed.

(** ** Rules for the machine *)
Lemma wp_tail A (m : M A) e (Q : A -> env -> Prop) (R : env -> Prop) : wp (bind m (fun a => ret a)) e Q R -> wp m e Q R.
Proof. unfold wp, bind, ret. destruct (m e); auto. Qed.
Lemma wp_new A c fs (k : val -> M A) e F (Q : A -> env -> Prop) (R : env -> Prop) : heap e F ->
  (forall a e', heap e' (fun x => ind a x + F x) -> same e e' -> wp (k (VObj a c fs)) e' Q R) ->
  wp (bind (new c fs) k) e Q R.
Proof.
  intros H K. destruct (alloc_spec H) as (_ & e' & E & H' & S). unfold wp, bind, new in *.
  unfold bind. rewrite E. unfold ret. apply (K _ _ H' S).
Qed.
Lemma wp_vnew A (k : val -> M A) e F (Q : A -> env -> Prop) (R : env -> Prop) : heap e F ->
  (forall a e', heap e' (fun x => ind a x + F x) -> same e e' -> wp (k (VVec a [])) e' Q R) ->
  wp (bind vnew k) e Q R.
Proof.
  intros H K. destruct (alloc_spec H) as (_ & e' & E & H' & S). unfold wp, bind, vnew in *.
  unfold bind. rewrite E. unfold ret. apply (K _ _ H' S).
Qed.
Lemma wp_snew A s (k : val -> M A) e F (Q : A -> env -> Prop) (R : env -> Prop) : heap e F ->
  (forall a e', heap e' (fun x => ind a x + F x) -> same e e' -> wp (k (VStr a s)) e' Q R) ->
  wp (bind (snew s) k) e Q R.
Proof.
  intros H K. destruct (alloc_spec H) as (_ & e' & E & H' & S). unfold wp, bind, snew in *.
  unfold bind. rewrite E. unfold ret. apply (K _ _ H' S).
Qed.
Definition has (f : fld) (fs : list (fld * val)) : bool := match lookup f fs with Some _ => true | None => false end.
Fixpoint has_all (l : list (fld * val)) (fs : list (fld * val)) : bool :=
  match l with [] => true | (f, x) :: l' => has f fs && has_all l' (update f x fs) end.
Lemma wp_put A f x a c fs (k : val -> M A) e F (Q : A -> env -> Prop) (R : env -> Prop) : heap e F -> 1 <= F a ->
  has f fs = true -> wp (k (VObj a c (update f x fs))) e Q R -> wp (bind (put f x (VObj a c fs)) k) e Q R.
Proof.
  intros H P L K. unfold wp, bind, put in *. unfold bind. rewrite (check_spec H P). unfold has in L.
  destruct (lookup f fs); [exact K|discriminate].
Qed.
Lemma puts_ok l : forall a c fs e F, heap e F -> 1 <= F a -> has_all l fs = true ->
  puts l (VObj a c fs) e = ROk (VObj a c (upds l fs)) e.
Proof.
  induction l as [|[f x] l IH]; intros a c fs e F H P L; [reflexivity|].
  cbn [has_all] in L. apply andb_prop in L as [L1 L2]. cbn [puts upds]. unfold bind at 1. unfold put.
  unfold bind at 1. rewrite (check_spec H P). unfold has in L1. destruct (lookup f fs); [|discriminate].
  unfold ret. eapply IH; eassumption.
Qed.
Lemma wp_puts A l a c fs (k : val -> M A) e F (Q : A -> env -> Prop) (R : env -> Prop) : heap e F -> 1 <= F a ->
  has_all l fs = true -> wp (k (VObj a c (upds l fs))) e Q R -> wp (bind (puts l (VObj a c fs)) k) e Q R.
Proof.
  intros H P L K. unfold wp, bind in *. rewrite (puts_ok c H P L). exact K.
Qed.
Lemma wp_getf A f x a c fs (k : val -> M A) e F (Q : A -> env -> Prop) (R : env -> Prop) : heap e F -> 1 <= F a ->
  lookup f fs = Some x -> x <> VUninit -> wp (k x) e Q R -> wp (bind (getf f (VObj a c fs)) k) e Q R.
Proof.
  intros H P L U K. unfold wp, bind, getf in *. unfold bind. rewrite (check_spec H P). unfold read_field. rewrite L.
  destruct x; try exact K. congruence.
Qed.
Arguments wp_getf {A f x a c fs k e F Q R} _ _ _ _ _.
Lemma wp_getr A f x fs (k : val -> M A) e (Q : A -> env -> Prop) (R : env -> Prop) :
  lookup f fs = Some x -> x <> VUninit -> wp (k x) e Q R -> wp (bind (getf f (VRec fs)) k) e Q R.
Proof.
  intros L U K. unfold wp, bind, getf, read_field in *. rewrite L. destruct x; try exact K. congruence.
Qed.
Lemma wp_vpush A x a l (k : val -> M A) e F (Q : A -> env -> Prop) (R : env -> Prop) : heap e F -> 1 <= F a ->
  wp (k (VVec a (l ++ [x]))) e Q R -> wp (bind (vpush x (VVec a l)) k) e Q R.
Proof.
  intros H P K. unfold wp, bind, vpush in *. unfold bind. rewrite (check_spec H P). exact K.
Qed.
Lemma wp_velems A a l (k : list val -> M A) e F (Q : A -> env -> Prop) (R : env -> Prop) : heap e F -> 1 <= F a ->
  wp (k l) e Q R -> wp (bind (velems (VVec a l)) k) e Q R.
Proof.
  intros H P K. unfold wp, bind, velems in *. unfold bind. rewrite (check_spec H P). exact K.
Qed.
Lemma wp_cstr A a s (k : bytes -> M A) e F (Q : A -> env -> Prop) (R : env -> Prop) : heap e F -> 1 <= F a ->
  wp (k s) e Q R -> wp (bind (cstr (VStr a s)) k) e Q R.
Proof.
  intros H P K. unfold wp, bind, cstr in *. unfold bind. rewrite (check_spec H P). exact K.
Qed.
Lemma wp_vback A f x a l b c fs (k : val -> M A) e F (Q : A -> env -> Prop) (R : env -> Prop) : heap e F ->
  1 <= F a -> 1 <= F b -> has f fs = true -> wp (k (VVec a (l ++ [VObj b c (update f x fs)]))) e Q R ->
  wp (bind (vback_put f x (VVec a (l ++ [VObj b c fs]))) k) e Q R.
Proof.
  intros H P P' L K. unfold wp, bind, vback_put in *. unfold bind. rewrite (check_spec H P).
  rewrite rev_app_distr. cbn [rev app put]. unfold bind. rewrite (check_spec H P'). unfold has in L.
  destruct (lookup f fs); [|discriminate]. unfold ret. rewrite rev_involutive. exact K.
Qed.
Lemma wp_freeing A m g (k : unit -> M A) e f F (Q : A -> env -> Prop) (R : env -> Prop) :
  frees m g -> heap e F -> (forall x, F x = g x + f x) -> (forall e', heap e' f -> same e e' -> wp (k tt) e' Q R) ->
  wp (bind m k) e Q R.
Proof.
  intros FR H EX K. destruct (FR e f) as (e' & E & H' & S); [eapply heap_ext; [exact H|exact EX]|].
  specialize (K e' H' S). unfold wp, bind in *. rewrite E. exact K.
Qed.
Lemma wp_bret A B (a : A) (k : A -> M B) e (Q : B -> env -> Prop) (R : env -> Prop) : wp (k a) e Q R -> wp (bind (ret a) k) e Q R.
Proof. exact (fun H => H). Qed.
Lemma no_uninit v t : wt v t -> match t with TUninit | TOpt TUninit => False | TOpt (TOpt _) => False | _ => True end -> v <> VUninit.
Proof.
  intros W N ->. destruct t as [| | | | | |? ?|t|?|?|?]; try (inversion W; fail); try exact N.
  apply wt_opt_inv in W as [E|W]; [discriminate E|]. destruct t; try exact N; inversion W.
Qed.

(** Erasure *)
Lemma erase_vec a l : erase (VVec a l) = VVec 0%N (map erase l).
Proof. reflexivity. Qed.

(** ** Tactics *)
Ltac norm_ty H := match type of H with wt ?v ?T => let t := eval vm_compute in T in change (wt v t) in H end.
Lemma typed_nil args : typed args [] -> args = [].
Proof. inversion 1; auto. Qed.
Lemma typed_cons args X Xs : typed args (X :: Xs) -> exists v args', args = v :: args' /\ wt v (symty X) /\ typed args' Xs.
Proof. unfold typed. inversion 1; subst; eauto. Qed.
Lemma in_single (n m : N) : In n [m] -> n = m.
Proof. intros [E|[]]. auto. Qed.
Ltac inv_scalar H :=
  match type of H with
  | wt _ TUninit => apply wt_uninit_inv in H; subst
  | wt _ TNull => apply wt_null_inv in H; subst
  | wt _ TInt => let z := fresh "z" in apply wt_int_inv in H; destruct H as [z ->]
  | wt _ TBool => let z := fresh "b" in apply wt_bool_inv in H; destruct H as [z ->]
  | wt _ TFlt => let z := fresh "t" in apply wt_flt_inv in H; destruct H as [z ->]
  | wt _ (TEnum _ [_]) => let n := fresh "n" in apply wt_enum_inv in H; destruct H as (n & -> & H); apply in_single in H; subst n
  | wt _ (TEnum _ _) => let n := fresh "n" in apply wt_enum_inv in H; destruct H as (n & -> & H)
  | wt _ TColType => unfold TColType in H; inv_scalar H
  | wt _ (TRec _) => let fs := fresh "fs" in apply wt_rec_inv in H; destruct H as (fs & -> & H); inv_fields H
  | _ => idtac
  end
with inv_fields H :=
  match type of H with
  | wts _ [] => apply wts_nil_inv in H; subst
  | wts _ _ =>
    let v := fresh "y" in let fs := fresh "fs" in let W := fresh "W" in let E := fresh "E" in
    apply wts_cons_inv in H; destruct H as (v & fs & E & W & H); subst; inv_scalar W; inv_fields H
  end.
Ltac inv_typed T :=
  match type of T with
  | typed _ [] => apply typed_nil in T; subst
  | typed _ _ =>
    let v := fresh "v" in let args := fresh "args" in let W := fresh "W" in let E := fresh "E" in
    apply typed_cons in T; destruct T as (v & args & E & W & T); subst; norm_ty W; inv_scalar W; inv_typed T
  end.
(** All shapes of an object. *)
Ltac inv_obj H :=
  let a := fresh "a" in let s := fresh "s" in let fs := fresh "fs" in let I := fresh "I" in
  apply wt_obj_inv in H; destruct H as (a & s & fs & -> & I & H); cbn [In] in I;
  repeat match type of I with _ \/ _ => destruct I as [I|I] end; try (destruct I; fail); subst s;
  cbn [fst snd] in *;
  match type of H with wts ?fs ?ts => let t := eval vm_compute in ts in change (wts fs t) in H end;
  cbn [shape_def fst snd] in *; inv_fields H.
Ltac inv_str H := let a := fresh "a" in let s := fresh "s" in apply wt_str_inv in H; destruct H as (a & s & ->).
Ltac inv_vec H :=
  let a := fresh "a" in let l := fresh "l" in apply wt_vec_inv in H; destruct H as (a & l & -> & H).
Ltac inv_opt H :=
  let E := fresh "E" in
  apply wt_opt_inv in H; destruct H as [->|H];
  [| lazymatch type of H with
     | wt _ TStr => inv_str H
     | wt _ (TVec _) => inv_vec H
     | wt _ (TObj _) => inv_obj H
     end].
Ltac cnt :=
  repeat first [rewrite ca_obj | rewrite ca_vec | rewrite ca_rec | rewrite cas_app | progress cbn [caf cas fst snd app]];
  cbn [ca].
Lemma pobj_none q a c fs : param_index c fs = None -> pobj q a c fs = 0.
Proof.
  unfold param_index, pobj, pind, is_param. destruct c; try reflexivity. destruct (lookup F_type fs) as [[]|]; try reflexivity.
  destruct e; try reflexivity. destruct n as [|n]; [reflexivity|].
  repeat (destruct n as [n|n|]; try reflexivity). destruct (lookup F_ival2 fs) as [[]|]; try reflexivity. discriminate.
Qed.
(** Types without parameters. *)
Definition noparam (t : ty) : bool :=
  match t with
  | TNull | TUninit | TInt | TBool | TFlt | TStr | TEnum _ _ | TOpt TStr | TVec TStr | TOpt (TVec TStr)
  | TVec (TEnum _ _) => true
  | _ => false
  end.
Lemma cps_0 l t q : wtl l t -> (forall v, wt v t -> cp q v = 0) -> cps q l = 0.
Proof.
  intros W Z. induction l as [|v l IH]; [reflexivity|]. apply wtl_cons_inv in W as [WV W]. cbn. rewrite (Z _ WV), (IH W). reflexivity.
Qed.
Lemma cp_0 v t q : noparam t = true -> wt v t -> cp q v = 0.
Proof.
  intros NP W. destruct t as [| | | | | |? ?|t|t|?|?]; try discriminate NP; try (inversion W; subst; reflexivity).
  - apply wt_opt_inv in W as [->|W]; [reflexivity|]. destruct t as [| | | | | |? ?|t|t|?|?]; try discriminate NP.
    + inversion W; reflexivity.
    + destruct t; try discriminate NP. apply wt_vec_inv in W as (a & l & -> & W). rewrite cp_vec. apply (cps_0 W). intros v V. inversion V; reflexivity.
  - destruct t; try discriminate NP; apply wt_vec_inv in W as (b & m & -> & W); rewrite cp_vec; apply (cps_0 W); intros v V;
      inversion V; reflexivity.
Qed.
Ltac cp_zero :=
  repeat match goal with W : wt ?v ?t |- context [cp ?q ?v] => rewrite (@cp_0 v t q eq_refl W) end.
Ltac cnt_p :=
  repeat first [rewrite cp_obj | rewrite cp_vec | rewrite cp_rec | rewrite cps_app
               | rewrite pobj_none by reflexivity | progress cbn [cpf cps fst snd app]];
  cbn [cp]; try (unfold pobj, pind, is_param; cbn [lookup fld_beq fld_code N.eqb Pos.eqb]).
Ltac own := cbn beta; cnt; rewrite ?ind_refl; lia.
Ltac hp H := eapply heap_ext; [exact H|]; let x := fresh "x" in intro x; cbn beta; cnt; lia.
Ltac in_tac := cbn [In] in *; first [tauto | intuition (subst; tauto)].
Ltac leaf :=
  lazymatch goal with
  | |- wt ?v ?T => let t := eval hnf in T in change (wt v t); leaf1
  | |- _ => leaf1
  end
with leaf1 :=
  lazymatch goal with
  | |- wt VNull _ => first [apply wt_null | apply wt_none]
  | |- wt VUninit _ => apply wt_uninit
  | |- wt (VInt _) _ => apply wt_int
  | |- wt (VBool _) _ => apply wt_bool
  | |- wt (VFlt _) _ => apply wt_flt
  | |- wt (VStr _ _) _ => first [apply wt_str | apply wt_some; apply wt_str]
  | |- wt (VEnum _ ?n) (TEnum _ [?m]) => constr_eq n m; apply wt_enum; left; reflexivity
  | |- wt _ (TEnum _ _) => apply wt_enum; in_tac
  | |- wt (VRec _) _ => apply wt_rec; repeat (apply wts_cons; [leaf|]); apply wts_nil
  | |- wt (VVec _ _) ?T => let t := eval hnf in T in
      lazymatch t with TOpt _ => apply wt_some; leaf | _ => apply wt_vec; leaf end
  | |- wt (VObj ?a ?c ?fs) ?T => let t := eval vm_compute in T in change (wt (VObj a c fs) t);
      lazymatch t with TOpt _ => apply wt_some; leaf | TObj ?l => obj_leaf l end
  | |- wtl [] _ => apply wtl_nil
  | |- wtl (_ :: _) _ => apply wtl_cons; [leaf|leaf]
  | |- wtl (_ ++ _) _ => apply wtl_app; [leaf|leaf]
  | H : wtl ?l ?t |- wtl ?l ?t => exact H
  | H : wt ?v ?t |- wt ?v ?t => exact H
  | H : wt ?v _ |- wt ?v _ => refine (sub_wt _ _ _ _ H); vm_compute; reflexivity
  end
with obj_leaf l :=
  lazymatch l with
  | ?s :: ?l' =>
    first [ refine (wt_obj _ s _ _ _ _); [in_tac | cbn [shape_def snd]; repeat (apply wts_cons; [leaf|]); apply wts_nil]
          | obj_leaf l' ]
  end.
Ltac nou := first [discriminate | match goal with H : wt ?v _ |- ?v <> VUninit => apply (no_uninit H); exact I end].
(** One step of symbolic execution; [H]: the heap. *)
Ltac norm_fields :=
  cbv beta iota zeta delta [upds update fld_beq fld_code N.eqb Pos.eqb init_Expr init_SQLStatement init_SelectStatement
    init_CreateStatement init_DeleteStatement init_DropStatement init_DropColumnAction init_AlterStatement
    init_TransactionStatement init_ExecuteStatement init_ExportStatement init_CsvOptions init_ImportExportOptions
    init_ImportStatement init_InsertStatement init_ShowStatement init_PrepareStatement init_UpdateStatement
    init_UpdateClause init_OrderDescription init_LimitDescription init_GroupByDescription init_WithDescription
    init_SetOperation init_LockingClause init_Alias init_TableRef init_JoinDefinition init_FrameBound
    init_FrameDescription init_WindowDescription init_TableConstraint init_ReferencesSpecification
    init_ForeignKeyConstraint init_ColumnDefinition mk_column_type mk_table_name
    kExprLiteralFloat kExprLiteralString kExprLiteralInt kExprLiteralNull kExprLiteralDate kExprLiteralInterval
    kExprStar kExprParameter kExprColumnRef kExprFunctionRef kExprOperator kExprSelect kExprHint kExprArray
    kExprArrayIndex kExprExtract kExprCast kOpNone kOpBetween kOpCase kOpCaseListElement kOpPlus kOpMinus
    kOpAsterisk kOpSlash kOpPercentage kOpCaret kOpEquals kOpNotEquals kOpLess kOpLessEq kOpGreater kOpGreaterEq
    kOpLike kOpNotLike kOpILike kOpAnd kOpOr kOpIn kOpConcat kOpNot kOpUnaryMinus kOpIsNull kOpExists
    kDatetimeNone kDatetimeSecond kDatetimeMinute kDatetimeHour kDatetimeDay kDatetimeMonth kDatetimeYear
    kFollowing kPreceding kCurrentRow kRange kRows kGroups kStmtSelect kStmtImport kStmtInsert kStmtUpdate
    kStmtDelete kStmtCreate kStmtDrop kStmtPrepare kStmtExecute kStmtExport kStmtAlter kStmtShow kStmtTransaction
    kOrderAsc kOrderDesc NullOrdering_Undefined NullOrdering_First NullOrdering_Last kSetUnion kSetIntersect
    kSetExcept ForUpdate ForNoKeyUpdate ForShare ForKeyShare NoWait SkipLocked LockNone kTableName kTableSelect
    kTableJoin kTableCrossProduct kJoinInner kJoinFull kJoinLeft kJoinRight kJoinCross kJoinNatural ForeignKey
    NotNull CNull PrimaryKey Unique kCreateTable kCreateTableFromTbl kCreateView kCreateIndex kImportCSV
    kImportTbl kImportBinary kImportAuto CsvDelimiter CsvNull CsvQuote ActionDropColumn kInsertValues
    kInsertSelect kShowColumns kShowTables kDropTable kDropIndex kDropView kDropPreparedStatement
    kBeginTransaction kCommitTransaction kRollbackTransaction DT_UNKNOWN DT_BIGINT DT_BOOLEAN DT_CHAR DT_DATE
    DT_DATETIME DT_DECIMAL DT_DOUBLE DT_FLOAT DT_INT DT_LONG DT_REAL DT_SMALLINT DT_TEXT DT_TIME DT_VARCHAR];
  cbn [app].
Ltac unfold_make :=
  cbv beta delta [makeOpUnary makeOpBinary makeBetween makeCaseList makeCaseListElement caseListAppend makeCase makeLiteralInt
    makeLiteralFloat makeLiteralString makeLiteralBool makeNullLiteral makeDateLiteral makeIntervalLiteral makeColumnRef
    makeColumnRef2 makeStar makeStar1 makeFunctionRef makeFunctionRef2 makeArray makeArrayIndex makeParameter makeSelect
    makeExists makeInList makeInSelect makeExtract makeCast mkExpr newColumnConstraints add_constraint add_reference vec1
    table_ref_of].
Ltac open_act :=
  match goal with |- context [act ?r ?args] =>
    let m := eval lazy beta iota zeta delta [act nth Nat.pred] in (act r args) in change (act r args) with m end;
  unfold_make; norm_fields.
Ltac get_heap tac := lazymatch goal with H : heap ?e _ |- wp _ ?e _ _ => tac H end.
Ltac join_same e e' S :=
  match goal with
  | S0 : same ?e0 e |- _ => let S' := fresh "S" in pose proof (same_trans S0 S) as S'; clear S0 S
  | _ => idtac
  end.
Ltac upd_heap H := (* drop the old heap fact *) clear H.
Ltac wstep :=
  lazymatch goal with
  | |- wp (bind (bind _ _) _) _ _ _ => apply wp_assoc
  | |- wp (bind (ret _) _) _ _ _ => apply wp_bret; cbn beta
  | |- wp (ret _) _ _ _ => apply wp_ret
  | |- wp (bind (as_int (VInt _)) _) _ _ _ => apply wp_bret; cbn beta
  | |- wp (bind (as_enum (VEnum _ _)) _) _ _ _ => apply wp_bret; cbn beta
  | |- wp (bind (is_null VNull) _) _ _ _ => apply wp_bret; cbn beta iota
  | |- wp (bind (is_null (VStr _ _)) _) _ _ _ => apply wp_bret; cbn beta iota
  | |- wp (bind (is_null (VObj _ _ _)) _) _ _ _ => apply wp_bret; cbn beta iota
  | |- wp (bind (is_null (VVec _ _)) _) _ _ _ => apply wp_bret; cbn beta iota
  | H : heap ?e _ |- wp (bind (new _ _) _) ?e _ _ =>
    apply (wp_new H); let a := fresh "a" in let e' := fresh "e" in let H' := fresh "H" in let S := fresh "S" in
    intros a e' H' S; clear H; rename H' into H; join_same e e' S; cbn beta
  | H : heap ?e _ |- wp (bind vnew _) ?e _ _ =>
    apply (wp_vnew H); let a := fresh "a" in let e' := fresh "e" in let H' := fresh "H" in let S := fresh "S" in
    intros a e' H' S; clear H; rename H' into H; join_same e e' S; cbn beta
  | H : heap ?e _ |- wp (bind (snew _) _) ?e _ _ =>
    apply (wp_snew H); let a := fresh "a" in let e' := fresh "e" in let H' := fresh "H" in let S := fresh "S" in
    intros a e' H' S; clear H; rename H' into H; join_same e e' S; cbn beta
  | H : heap ?e _ |- wp (bind (puts _ (VObj _ _ _)) _) ?e _ _ =>
    apply (wp_puts H); [own|reflexivity|]; norm_fields
  | H : heap ?e _ |- wp (bind (put _ _ (VObj _ _ _)) _) ?e _ _ =>
    apply (wp_put H); [own|reflexivity|]; norm_fields
  | H : heap ?e _ |- wp (bind (getf _ (VObj _ _ _)) _) ?e _ _ =>
    eapply (wp_getf H); [own|reflexivity|nou|]; cbn beta
  | |- wp (bind (getf _ (VRec _)) _) ?e _ _ =>
    eapply wp_getr; [reflexivity|nou|]; cbn beta
  | H : heap ?e _ |- wp (bind (vpush _ (VVec _ _)) _) ?e _ _ => apply (wp_vpush H); [own|]; cbn [app]
  | H : heap ?e _ |- wp (bind (velems (VVec _ _)) _) ?e _ _ => apply (wp_velems H); [own|]
  | H : heap ?e _ |- wp (bind (cstr (VStr _ _)) _) ?e _ _ => apply (wp_cstr H); [own|]
  | W : wt ?v (TOpt _) |- wp (bind (is_null ?v) _) _ _ _ => inv_opt W
  | W : wt ?v (TVec _) |- wp (bind (vpush _ ?v) _) _ _ _ => inv_vec W
  | W : wt ?v (TVec _) |- wp (bind (velems ?v) _) _ _ _ => inv_vec W
  | W : wt ?v TStr |- wp (bind (cstr ?v) _) _ _ _ => inv_str W
  | W : wt ?v (TObj _) |- wp (bind (puts _ ?v) _) _ _ _ => inv_obj W
  | W : wt ?v (TObj _) |- wp (bind (put _ _ ?v) _) _ _ _ => inv_obj W
  | W : wt ?v (TObj _) |- wp (bind (getf _ ?v) _) _ _ _ => inv_obj W
  | |- wp (bind (bind _ _) _) _ _ _ => fail
  | |- wp (bind (if _ then _ else _) _) _ _ _ => fail
  | |- wp (bind _ _) _ _ _ => fail
  | |- wp (if _ then _ else _) _ _ _ => fail
  | |- wp (match _ with _ => _ end) _ _ _ => fail
  | |- wp _ _ _ _ => apply wp_tail
  end.
(** Freeing: [free F G H]: the freed part is [F : frees _ _], the rest is inferred. *)
Ltac wfree F g :=
  match goal with H : heap ?e _ |- wp (bind ?m _) ?e _ _ =>
    eapply (wp_freeing (f := g) F H); [intro; cbn beta; cnt; lia|];
    let e' := fresh "e" in let H' := fresh "H" in let S := fresh "S" in
    intros e' H' S; clear H; rename H' into H; join_same e e' S; cbn beta
  end.
Ltac goal_wt := match goal with |- wt ?v ?T => let t := eval vm_compute in T in change (wt v t) end.
Ltac fin :=
  lazymatch goal with H : heap ?e _ |- _ /\ heap ?e _ /\ same _ ?e /\ _ =>
    split; [goal_wt; first [leaf | match goal with W : wt ?v _ |- wt ?v _ => inv_obj W end; leaf]|]; split; [hp H|]; split; [first [assumption | apply same_refl]|];
    split; [intro; cnt_p; cp_zero; lia | intro; try reflexivity; try (cbn; rewrite ?map_app; reflexivity)]
  end.
Ltac start := apply plain_spec; [reflexivity|]; let T := fresh "T" in intros args e F T H; inv_typed T; 
  pose proof (same_refl e) as S0; open_act.
Ltac plain_tac := start; repeat wstep; fin.

(** ** Freeing inside an action *)
Lemma del_block_vec a l : frees (del_block (VVec a l)) (ind a).
Proof. exact (@frees_release a). Qed.
Lemma del_block_obj a c fs : frees (del_block (VObj a c fs)) (ind a).
Proof. apply frees_release. Qed.
Ltac wts_tac :=
  lazymatch goal with
  | |- wts [] _ => apply wts_nil
  | |- wts _ _ => eapply wts_cons; [wt_any|wts_tac]
  end
with wt_any :=
  lazymatch goal with
  | |- wt VNull _ => apply wt_null
  | |- wt VUninit _ => apply wt_uninit
  | |- wt (VInt _) _ => apply wt_int
  | |- wt (VBool _) _ => apply wt_bool
  | |- wt (VFlt _) _ => apply wt_flt
  | |- wt (VStr _ _) _ => apply wt_str
  | |- wt (VEnum _ ?n) _ => apply (wt_enum _ n [n]); left; reflexivity
  | |- wt (VRec _) _ => eapply wt_rec; wts_tac
  | |- wt (VObj ?a CCsvOptions ?fs) _ =>
    apply (wt_obj a YCsv fs [YCsv]); [left; reflexivity|cbn [shape_def snd]; repeat (apply wts_cons; [leaf|]); apply wts_nil]
  | H : wtl ?l _ |- wt (VVec _ ?l) _ => eapply wt_vec; exact H
  | H : wt ?v _ |- wt ?v _ => exact H
  end.
(** [L : frees m g] at the head of the program. *)
Ltac wfrees L :=
  match goal with H : heap ?e ?F |- wp (bind ?m _) ?e _ _ =>
    match type of L with frees _ ?g =>
      eapply (wp_freeing (f := fun x => F x - g x) L H); [intro; cbn beta; cnt; rewrite ?ind_refl; lia|]
    end;
    let e' := fresh "e" in let H' := fresh "H" in let S := fresh "S" in
    intros e' H' S; clear H; rename H' into H; join_same e e' S; cbn beta in H |- *
  end.
Ltac ffree :=
  lazymatch goal with
  | |- wp (bind (del_block (VVec ?a ?l)) _) _ _ _ => let L := fresh "L" in pose proof (@del_block_vec a l) as L; wfrees L; clear L
  | |- wp (bind (del (VVec ?a ?l)) _) _ _ _ => let L := fresh "L" in pose proof (@del_vec_frees a l) as L; wfrees L; clear L
  | |- wp (bind (del_block (VObj ?a ?c ?fs)) _) _ _ _ => let L := fresh "L" in pose proof (@del_block_obj a c fs) as L; wfrees L; clear L
  | |- wp (bind (free_ VNull) _) _ _ _ => apply wp_bret; cbn beta
  | |- wp (bind (del VNull) _) _ _ _ => apply wp_bret; cbn beta
  | |- wp (bind (free_ ?v) _) _ _ _ =>
    let L := fresh "L" in assert (L : frees (free_ v) (fun x => ca x v)) by
      (apply free_frees; first [exact I | match goal with W : wt v _ |- _ => eapply str_ty_owned; [|exact W]; reflexivity end]);
    wfrees L; clear L
  | |- wp (bind (del (VObj ?a ?c ?fs)) _) _ _ _ =>
    let L := fresh "L" in assert (L : frees (del (VObj a c fs)) (fun x => ca x (VObj a c fs))) by
      (eapply del_obj_frees; [wts_tac|vm_compute; reflexivity]);
    wfrees L; clear L
  | W : wt ?v ?t |- wp (bind (del ?v) _) _ _ _ =>
    let L := fresh "L" in pose proof (@del_frees v t W eq_refl) as L; wfrees L; clear L
  end.
Lemma wp_vback1 A f x a b c fs (k : val -> M A) e F (Q : A -> env -> Prop) (R : env -> Prop) : heap e F ->
  1 <= F a -> 1 <= F b -> has f fs = true -> wp (k (VVec a [VObj b c (update f x fs)])) e Q R ->
  wp (bind (vback_put f x (VVec a [VObj b c fs])) k) e Q R.
Proof. exact (@wp_vback A f x a [] b c fs k e F Q R). Qed.
Lemma wp_set_insert A x a l (k : val -> M A) e F (Q : A -> env -> Prop) (R : env -> Prop) : heap e F -> 1 <= F a ->
  wp (k (VVec a (if existsb (enum_is x) l then l else l ++ [x]))) e Q R ->
  wp (bind (set_insert x (VVec a l)) k) e Q R.
Proof.
  intros H P K. unfold wp, bind, set_insert in *. unfold bind. rewrite (check_spec H P). unfold ret.
  destruct (existsb (enum_is x) l); exact K.
Qed.
Ltac hstep :=
  lazymatch goal with
  | |- wp (bind (move_options _ _) _) _ _ _ => unfold move_options
  | |- wp (bind (add_set_operation _ _ _) _) _ _ _ => unfold add_set_operation
  | |- wp (bind (vback_puts _ _) _) _ _ _ => cbn [vback_puts]
  | |- wp (bind (add_constraint _ _) _) _ _ _ => unfold add_constraint
  | |- wp (bind (add_reference _ _) _) _ _ _ => unfold add_reference
  | |- wp (bind (accept_csv_option _ _) _) _ _ _ => unfold accept_csv_option
  | H : heap ?e _ |- wp (bind (vback_put _ _ (VVec _ (_ ++ [VObj _ _ _]))) _) ?e _ _ =>
    apply (wp_vback H); [own|own|reflexivity|]; norm_fields
  | H : heap ?e _ |- wp (bind (vback_put _ _ (VVec _ [VObj _ _ _])) _) ?e _ _ =>
    apply (wp_vback1 H); [own|own|reflexivity|]; norm_fields
  | W : wt ?v (TObj _) |- wp (bind (vback_put _ _ (VVec _ (_ ++ [?v]))) _) _ _ _ => inv_obj W
  | W : wt ?v (TObj _) |- wp (bind (vback_put _ _ (VVec _ [?v])) _) _ _ _ => inv_obj W
  | H : heap ?e _ |- wp (bind (set_insert _ (VVec _ _)) _) ?e _ _ => apply (wp_set_insert H); [own|]; cbn [existsb app]
  | W : wt ?v (TVec _) |- wp (bind (set_insert _ ?v) _) _ _ _ => inv_vec W
  | |- wp (bind (if true then _ else _) _) _ _ _ => cbn beta iota
  | |- wp (bind (if false then _ else _) _) _ _ _ => cbn beta iota
  | |- wp (if true then _ else _) _ _ _ => cbn beta iota
  | |- wp (if false then _ else _) _ _ _ => cbn beta iota
  end; cbn beta iota zeta; cbn [fst snd].
Ltac steps := repeat (first [hstep | wstep | ffree]; cbn [fst snd]).
