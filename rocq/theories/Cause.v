(** The messages of the semantic checks.  No code of /repo. *)
From Verif Require Import Script PropParse PropError Frame PropAccess2 Left Complaint.
From Verif Require Import Inv InvStep InvRun Abs Prec.
From Coq Require Import ZifyBool ZifyNat ZifyN.
Local Open Scope nat_scope.
Set Implicit Arguments.
Unset Strict Implicit.

(** ** Which operations do not raise errors *)
Definition noerr A (m : M A) : Prop := forall e e', m e <> RErr e'.
Lemma n_ret A (a : A) : noerr (ret a). Proof. discriminate. Qed.
Lemma n_fail A u : noerr (@fail A u). Proof. discriminate. Qed.
Lemma n_bind A B (m : M A) (k : A -> M B) : noerr m -> (forall a, noerr (k a)) -> noerr (bind m k).
Proof. intros H K e e'. unfold bind. specialize (H e). destruct (m e) as [a e1|e1|u]; [apply K|destruct (H e1); reflexivity|discriminate]. Qed.
Lemma n_alloc : noerr alloc. Proof. discriminate. Qed.
Lemma n_release a : noerr (release a). Proof. intros e e'. unfold release. destruct (memN _ _); discriminate. Qed.
Lemma n_check a : noerr (check a). Proof. intros e e'. unfold check. destruct (memN _ _); discriminate. Qed.
Lemma n_get A (g : env -> A) : noerr (fun e => ROk (g e) e). Proof. discriminate. Qed.
Create HintDb ne.
#[local] Hint Resolve n_ret n_fail n_alloc n_release n_check n_get : ne.
Ltac ne := repeat first
  [ solve [auto with ne]
  | apply n_bind; [|intro]
  | match goal with |- noerr (match ?x with _ => _ end) => destruct x end
  | match goal with |- noerr (if ?x then _ else _) => destruct x end ].
Lemma n_deref v : noerr (deref v). Proof. unfold deref. ne. Qed.
Lemma n_read_field f fs : noerr (read_field f fs). Proof. unfold read_field. ne. Qed.
#[local] Hint Resolve n_deref n_read_field : ne.
Lemma n_getf f v : noerr (getf f v). Proof. unfold getf. ne. Qed.
Lemma n_put f x v : noerr (put f x v). Proof. unfold put. ne. Qed.
#[local] Hint Resolve n_getf n_put : ne.
Lemma n_puts l : forall v, noerr (puts l v). Proof. induction l as [|[f x] l IH]; intro v; cbn [puts]; ne. Qed.
Lemma n_new c fs : noerr (new c fs). Proof. unfold new. ne. Qed.
Lemma n_snew s : noerr (snew s). Proof. unfold snew. ne. Qed.
Lemma n_vnew : noerr vnew. Proof. unfold vnew. ne. Qed.
Lemma n_vpush x v : noerr (vpush x v). Proof. unfold vpush. ne. Qed.
Lemma n_velems v : noerr (velems v). Proof. unfold velems. ne. Qed.
Lemma n_cstr v : noerr (cstr v). Proof. unfold cstr. ne. Qed.
Lemma n_is_null v : noerr (Heap.is_null v). Proof. unfold Heap.is_null. ne. Qed.
Lemma n_as_enum v : noerr (as_enum v). Proof. unfold as_enum. ne. Qed.
Lemma n_free v : noerr (free_ v). Proof. unfold free_. ne. Qed.
#[local] Hint Resolve n_puts n_new n_snew n_vnew n_vpush n_velems n_cstr n_is_null n_as_enum n_free : ne.
Lemma n_free_all l : noerr (free_all l). Proof. induction l; cbn [free_all]; ne. Qed.
#[local] Hint Resolve n_free_all : ne.
Lemma n_del_block v : noerr (del_block v). Proof. unfold del_block. ne. Qed.
Lemma n_free_vec v : noerr (free_vec v). Proof. unfold free_vec. ne. Qed.
#[local] Hint Resolve n_del_block n_free_vec : ne.
Lemma n_del_locking v : noerr (del_locking v). Proof. unfold del_locking. ne. Qed.
#[local] Hint Resolve n_del_locking : ne.
Lemma n_del_sized n : forall v, (vsize v <= n)%nat -> noerr (del v).
Proof.
  induction n as [|n IH]; intros v HS; [destruct v; cbn in HS; lia|]. destruct v as [| | | | | | |a c fs|a l|fs]; try (cbn [del]; solve [ne]). rewrite del_obj_eq. apply n_bind; [apply n_check|intro].
  apply n_bind; [|intro; apply n_release]. cbn [vsize] in HS. revert HS. induction fs as [|[f x] fs IHf]; intro HS; cbn [del_members]; [apply n_ret|]. apply n_bind; [|intro; apply IHf; lia].
  assert (HX : (vsize x <= n)%nat) by lia. clear HS IHf. destruct (dtor_how c f); [ne|ne|exact (IH _ HX)| |ne|ne|ne| |].
  - destruct x as [| | | | | | | |b l|]; try solve [ne]. apply n_bind; [apply n_check|intro]. apply n_bind; [|intro; apply n_release]. cbn [vsize] in HX. revert HX. induction l as [|y l IHl]; intro HX; [apply n_ret|].
    apply n_bind; [apply IH; lia|intro; apply IHl; lia].
  - destruct x as [| | | | | | | |b l|]; try solve [ne]. apply n_bind; [apply n_check|intro]. apply n_bind; [|intro; apply n_release]. clear HX. induction l as [|y l IHl]; [apply n_ret|]. apply n_bind; [apply n_del_locking|intro; apply IHl].
  - destruct x as [| | | | | | | |b l|]; try solve [ne]. apply n_bind; [apply n_check|intro]. apply n_bind; [|intro; apply n_release]. cbn [vsize] in HX. revert HX. induction l as [|y l IHl]; intro HX; [apply n_ret|].
    apply n_bind; [|intro; apply IHl; lia]. assert (HY : (vsize y <= n)%nat) by lia. clear HX IHl. destruct y as [| | | | | | |d cc us| |]; try solve [ne]. destruct cc; try solve [ne].
    apply n_bind; [apply n_check|intro]. apply n_bind; [|intro; apply n_release]. cbn [vsize] in HY. revert HY. induction us as [|[g z] us IHu]; intro HY; [apply n_ret|].
    assert (HZ : (vsize z <= n)%nat) by lia. assert (HU := IHu ltac:(lia)). destruct g; try exact HU; (apply n_bind; [first [apply n_free|exact (IH _ HZ)]|intro; exact HU]).
Qed.
Lemma n_del v : noerr (del v). Proof. exact (n_del_sized (le_n _)). Qed.
#[local] Hint Resolve n_del : ne.
Lemma n_accept_csv a v : noerr (accept_csv_option a v). Proof. unfold accept_csv_option. cbv zeta. ne. Qed.
#[local] Hint Resolve n_accept_csv : ne.

(** ** What an action says when it fails *)
Definition says A (m : M A) (s : bytes) : Prop := forall e e', m e = RErr e' -> exists a, e_msg e' = VStr a s.
Lemma s_quiet A (m : M A) s : noerr m -> says m s.
Proof. intros N e e' E. destruct (N _ _ E). Qed.
Lemma s_bind A B (m : M A) (k : A -> M B) s : noerr m -> (forall e a e1, m e = ROk a e1 -> says (k a) s) -> says (bind m k) s.
Proof. intros H K e e' E. unfold bind in E. specialize (H e). destruct (m e) as [a e1|e1|u] eqn:EM; [exact (K _ _ _ EM _ _ E)|destruct (H e1); reflexivity|discriminate]. Qed.
Lemma s_error A s : says (yyerror s ;; @YYERROR A) s.
Proof. intros e e' E. unfold yyerror, yyerror_at, bind, snew, bind, alloc, ret, YYERROR in E. injection E as <-. cbn. eauto. Qed.
Lemma get_val f v e x e1 : f <> F_ival -> f <> F_stringLength -> getf f v e = ROk x e1 -> fget f (erase v) = erase x.
Proof.
  intros N1 N2. unfold getf, read_field, bind, check, ret, fail. destruct v as [| | | | | | |a c fs| |fs]; try discriminate.
  - destruct (memN _ _); [|discriminate]. destruct (lookup f fs) as [y|] eqn:L; [|discriminate]. intro E. rewrite Poke.erase_obj_def. unfold fget. rewrite erase_lookup by assumption; rewrite L. cbn [option_map]. destruct y; try discriminate E; now injection E as <- _.
  - destruct (lookup f fs) as [y|] eqn:L; [|discriminate]. intro E. rewrite Poke.erase_rec_def. unfold fget. rewrite PrintCong.lookup_erase, L. cbn [option_map]. rewrite PrintCong.erase_scalar_id by exact N2. destruct y; try discriminate E; now injection E as <- _.
Qed.
Lemma str_val v e s e1 : cstr v e = ROk s e1 -> text (erase v) = s.
Proof. unfold cstr, bind, check, ret, fail. destruct v; try discriminate. destruct (memN _ _); [|discriminate]. intro E. now injection E as <- _. Qed.
Lemma null_val v e b e1 : Heap.is_null v e = ROk b e1 -> isnull (erase v) = b.
Proof. unfold Heap.is_null, ret, fail. destruct v; try discriminate; intro E; now injection E as <- _. Qed.
Lemma enum_val v e x e1 : as_enum v e = ROk x e1 -> x = v /\ erase v = v.
Proof. unfold as_enum, ret, fail. destruct v; try discriminate; intro E; injection E as <- _. auto. Qed.
Lemma enum_erase v k : is_enum (erase v) k = enum_is v k.
Proof. destruct v; reflexivity. Qed.

Ltac sy := repeat first
  [ apply s_error
  | solve [apply s_quiet; ne]
  | apply s_bind; [solve [ne]|intros ? ? ? ?]
  | match goal with |- says (match ?x with _ => _ end) _ => destruct x eqn:? end ].
(** The productions with a check that makes the action fail at once. *)
Definition checked : list N := [37; 42; 44; 46; 48; 55; 162; 179; 294; 296; 297]%N.
Lemma act_says r args : In r checked -> says (act r args) (complaint r (map erase args)).
Proof.
  intro I. assert (AR : forall n, nth n (map erase args) VUninit = erase (nth n args VUninit)) by (intro n; exact (map_nth erase args VUninit n)).
  unfold checked in I. cbn [In] in I. repeat (destruct I as [<-|I]; [unfold act, complaint; cbv zeta; cbn [Nat.pred]; rewrite ?AR|]); [..|destruct I].
  all: unfold err_file_type, err_type_once, err_csv_only, err_enc_once, err_csv_once, err_csv_unknown, err_nulls, err_param_literal, err_date, err_interval1, err_interval2, err_interval_unit.
  all: sy.
  all: repeat match goal with
       | H : getf F_format _ _ = ROk _ _ |- _ => apply get_val in H; [rewrite H, !enum_erase|discriminate..]
       | H : cstr _ _ = ROk _ _ |- _ => apply str_val in H; rewrite H
       end.
  - apply negb_true_iff in Heqb. rewrite Heqb. sy.
  - apply negb_false_iff in Heqb. rewrite Heqb. sy.
  - apply andb_prop in Heqb as [A1 A2]. apply negb_true_iff in A1, A2. rewrite A1, A2. sy.
  - rewrite <- negb_orb in Heqb. apply negb_false_iff in Heqb. rewrite Heqb. sy.
  - match goal with H : scan_interval2 _ = _ |- _ => rewrite H end. sy.
  - match goal with H : scan_interval2 _ = _ |- _ => rewrite H end. sy.
Qed.
Lemma n_trySet v : noerr (trySetNullableExplicit v). Proof. unfold trySetNullableExplicit. cbv zeta. ne. Qed.
Lemma n_yyerror m : noerr (yyerror m). Proof. intros e e'. discriminate. Qed.
#[local] Hint Resolve n_trySet n_yyerror : ne.
Lemma act_66_quiet args : noerr (act 66 args).
Proof. unfold act. cbv zeta. ne. Qed.
Lemma asem_checks r k vs : asem r k vs = None -> In r (66%N :: checked).
Proof.
  destruct (existsb (N.eqb r) (66%N :: checked)) eqn:K; [intros _; apply existsb_exists in K as (q & I & E); apply N.eqb_eq in E; now subst|]. intro E. exfalso. revert K E. unfold asem. cbv zeta.
  repeat match goal with
  | |- _ -> match ?x with N0 => _ | Npos _ => _ end = _ -> _ => destruct x
  | |- _ -> match ?x with xI _ => _ | xO _ => _ | xH => _ end = _ -> _ => destruct x
  end.
  all: try (intros _ E; discriminate E).
  all: intros K _; discriminate K.
Qed.
(** A column definition with contradicting constraints only leaves a message. *)
Lemma keeps A (m : M A) : (forall P : env -> Prop, (forall e, P e -> P (set_heap (e_next e + 1) (e_next e :: e_live e) e)) -> (forall a e, P e -> P (set_heap (e_next e) (removeN a (e_live e)) e)) -> @Frame.frame P A m) ->
  forall e x e', m e = ROk x e' -> err_eq e e' /\ (e_next e <= e_next e')%N.
Proof.
  intros F e x e' E. assert (R : err_eq e e /\ (e_next e <= e_next e)%N) by (split; [repeat split|lia]). set (P := fun e1 => err_eq e e1 /\ (e_next e <= e_next e1)%N).
  assert (Q1 : forall e1, P e1 -> P (set_heap (e_next e1 + 1) (e_next e1 :: e_live e1) e1)) by (intros e1 [Q1 Q2]; split; [exact Q1|cbn [set_heap e_next]; lia]).
  assert (Q2 : forall a e1, P e1 -> P (set_heap (e_next e1) (removeN a (e_live e1)) e1)) by (intros a e1 [Q2 Q3]; split; [exact Q2|exact Q3]).
  specialize (F P Q1 Q2 e R). rewrite E in F. exact F.
Qed.
Lemma act_66_says args e v e' : act 66 args e = ROk v e' -> err_eq e e' \/ exists a, e_msg e' = VStr a (complaint 66 (map erase args)) /\ (e_next e <= a)%N.
Proof.
  unfold act. cbv zeta. cbn [Nat.pred]. intro E.
  assert (B : forall A B (m : M A) (k : A -> M B) e y e', bind m k e = ROk y e' -> exists x e1, m e = ROk x e1 /\ k x e1 = ROk y e').
  { clear. intros A B m k e y e' E. unfold bind in E. destruct (m e) as [x e1|e1|u]; try discriminate E. eauto. }
  apply B in E as (c & e1 & E1 & E). apply B in E as (r & e2 & E2 & E). apply B in E as (o & e3 & E3 & E). apply B in E as (p & e4 & E4 & E). apply B in E as (u & e5 & E5 & E). apply B in E as (u1 & e6 & E6 & E). injection E as _ <-.
  apply (keeps (fun P A1 A2 => @f_getf P _ _)) in E1 as [E1 N1]. apply (keeps (fun P A1 A2 => @f_getf P _ _)) in E2 as [E2 N2]. apply (keeps (fun P A1 A2 => @f_new P A1 _ _)) in E3 as [E3 N3]. apply (keeps (fun P A1 A2 => @f_trySet P _)) in E4 as [E4 N4]. apply (keeps (fun P A1 A2 => @f_del P A2 _)) in E6 as [E6 N6].
  pose proof (err_eq_trans (err_eq_trans (err_eq_trans E1 E2) E3) E4) as K. assert (NX : (e_next e <= e_next e4)%N) by lia. clear E1 E2 E3 E4 N1 N2 N3 N4. destruct (fst p); [injection E5 as _ <-; left; eapply err_eq_trans; eassumption|right].
  apply B in E5 as (s & e7 & E7 & E5). pose proof (str_val E7) as TX. apply (keeps (fun P A1 A2 => @f_cstr P _)) in E7 as [E7 N7]. subst s. unfold yyerror, yyerror_at, bind, snew, bind, alloc, ret in E5. injection E5 as _ <-. destruct E6 as (_ & E6 & _). cbn in E6. rewrite E6. eexists. split; [|etransitivity; [exact NX|exact N7]]. unfold complaint. cbn [Nat.pred]. change VUninit with (erase VUninit) at 2. rewrite map_nth. reflexivity.
Qed.

(** ** The values on the stack, once there is a message *)
Inductive held : nat -> list entry -> list tree -> nat -> Prop :=
| h_nil k : held k [] [] k
| h_cons k k1 k2 x t ents trees : sem t k = Some (erase (s_val x), k1) \/ carrier (sym x) = true -> held k1 ents trees k2 -> held k (x :: ents) (t :: trees) k2.
Lemma held_app a : forall k k2 b t u, List.length a = List.length t -> held k (a ++ b) (t ++ u) k2 -> exists k1, held k a t k1 /\ held k1 b u k2.
Proof.
  induction a as [|x a IH]; intros k k2 b [|t0 t] u L H; try discriminate L; [exists k; split; [constructor|exact H]|]. cbn [app] in H. inversion H as [|? k1 ? ? ? ? ? H1 H2]; subst.
  assert (L1 : List.length a = List.length t) by (injection L; auto). destruct (IH _ _ _ _ _ L1 H2) as (k3 & H3 & H4). exists k3. split; [econstructor; eassumption|exact H4].
Qed.
Lemma held_join a t k k1 : held k a t k1 -> forall b u k2, held k1 b u k2 -> held k (a ++ b) (t ++ u) k2.
Proof. induction 1; intros b u k3 H3; [exact H3|]. cbn [app]. econstructor; eauto. Qed.
Lemma held_sems a t k k1 : held k a t k1 -> existsb carrier (map sym a) = false -> sems t k = Some (map erase (map s_val a), k1).
Proof.
  induction 1 as [|k k1 k2 x t a trees H1 H IH]; intro C; [reflexivity|]. cbn [map existsb] in C. apply orb_false_iff in C as [C1 C2]. destruct H1 as [H1|H1]; [|congruence]. cbn [sems map]. now rewrite H1, IH.
Qed.
Lemma sems_held a : forall t k k1, sems t k = Some (map erase (map s_val a), k1) -> held k a t k1.
Proof.
  induction a as [|x a IH]; intros [|u t] k k1 E; cbn [sems map] in E.
  - injection E as <-. constructor.
  - destruct (sem u k) as [[v k2]|]; [|discriminate]. destruct (sems t k2) as [[vs k3]|]; discriminate.
  - discriminate.
  - destruct (sem u k) as [[v k2]|] eqn:E1; [|discriminate]. destruct (sems t k2) as [[vs k3]|] eqn:E2; [|discriminate]. injection E as -> -> ->. econstructor; [left; exact E1|now apply IH].
Qed.
(** The message is the complaint about a part of what the stack has read. *)
Definition told (trees : list tree) (e : env) : Prop :=
  exists pre t post X m a k0 r0, yields trees = pre ++ yield t ++ post /\ derives X t /\ objectionable t m /\ e_msg e = VStr a m /\
    yield t = k0 :: r0 /\ e_line e = VInt (fl (t_pos k0)) /\ e_col e = VInt (fc (t_pos k0)).
Lemma told_yields trees trees' q e e' : told trees e -> yields trees' = yields trees ++ q -> err_eq e e' -> told trees' e'.
Proof.
  intros (pre & t & post & X & m & a & k0 & r0 & Y & D & O & M & Y1 & L & C) E (_ & E1 & E2 & E3). exists pre, t, (post ++ q), X, m, a, k0, r0.
  rewrite E, Y, E1, E2, E3, <- !app_assoc. repeat split; assumption.
Qed.
Definition extra (p : pstate) (ents : list entry) (trees : list tree) : Prop :=
  e_msg (p_env p) <> VNull -> held 0 ents trees (List.length (e_plist (p_env p))) /\ told trees (p_env p).
Lemma checked_fact r lhs rhs : In r (66%N :: checked) -> production r = Some (lhs, rhs) -> existsb carrier rhs = false.
Proof.
  assert (A : forallb (fun p => negb (existsb (N.eqb (fst p)) (66%N :: checked)) || negb (existsb carrier (snd (snd p)))) grammar = true) by (vm_compute; reflexivity).
  rewrite forallb_forall in A. intros I P. specialize (A _ (production_In P)). cbn [fst snd] in A.
  assert (E : existsb (N.eqb r) (66%N :: checked) = true) by (apply existsb_exists; exists r; split; [exact I|apply N.eqb_refl]). rewrite E in A. cbn [negb orb] in A. now apply negb_true_iff.
Qed.
Lemma ents_of (ents ents' : list entry) b b' : rev ents ++ [b] = rev ents' ++ [b'] -> ents = ents' /\ b = b'.
Proof. intro E. apply app_inj_tail in E as [E ->]. split; [|reflexivity]. rewrite <- (rev_involutive ents), E. apply rev_involutive. Qed.

Section Cause.
Variables (ts0 : list token) (e0 : env) (B : N -> nat).
Hypothesis OK0 : Forall tok_ok ts0.
Hypothesis M0 : e_msg e0 = VNull.
Hypothesis P0 : e_params e0 = [].
Lemma still_early p ents b trees lk lost : inv ts0 e0 B p ents b trees lk lost -> e_msg (p_env p) <> VNull -> early e0 (p_env p) ents trees.
Proof. intros I M. destruct (i_phase I) as [EA|(tl & ts & rest & _ & MN & _)]; [exact EA|contradiction]. Qed.
Lemma all_held p ents b trees lk lost : inv ts0 e0 B p ents b trees lk lost -> extra p ents trees -> early e0 (p_env p) ents trees -> held 0 ents trees (List.length (e_plist (p_env p))).
Proof. intros I X EA. destruct (msg_dec (e_msg (p_env p))) as [M|M]; [|apply X; exact M]. apply sems_held. exact (ea_sem EA M). Qed.
(** A part whose check fails, at the end of what was read. *)
Lemma tell_new popped trees1 tp r lhs rhs e' m a k n below : Forall2 ent popped tp -> production r = Some (lhs, rhs) -> map sym popped = rhs -> r <> 1%N ->
  sems tp k = Some (map erase (map s_val popped), n) -> asem r n (map erase (map s_val popped)) = None -> m = complaint r (map erase (map s_val popped)) ->
  e_msg e' = VStr a m -> e_line e' = VInt (l_fl (default_loc popped below)) -> e_col e' = VInt (l_fc (default_loc popped below)) -> told (trees1 ++ tp) e'.
Proof.
  intros F P RH N1 SE AS EM MM LL CC. pose proof (starts_hollow_fact P N1 AS) as SH. assert (D : derives lhs (Node r tp)) by (econstructor; [exact P|rewrite <- RH; apply derives_list_of, F]).
  assert (SO : solid (Node r tp) = true).
  { destruct F as [|x t popped tp EN F]; [rewrite <- RH in SH; discriminate SH|]. cbn [solid]. rewrite <- RH in SH. cbn [map starts_hollow] in SH. exact (derives_solid (en_tree EN) SH). }
  destruct (new_loc below F (r := r) SO) as (k0 & r0 & Y & L1 & L2).
  exists (yields trees1), (Node r tp), [], lhs, m, a, k0, r0. rewrite yields_app, app_nil_r. split; [reflexivity|]. split; [exact D|]. split; [exists r, tp, k; eexists _, n; repeat split; eassumption|]. rewrite LL, CC, L1, L2. auto.
Qed.
Lemma cause_step p ents b trees lk lost p' : inv ts0 e0 B p ents b trees lk lost -> extra p ents trees -> step p = Cont p' ->
  exists ents' b' trees' lk' lost', inv ts0 e0 B p' ents' b' trees' lk' lost' /\ extra p' ents' trees' /\ astep (abs ents trees lk (p_toks p)) = ACont (abs ents' trees' lk' (p_toks p')).
Proof.
  intros I X ST. pose proof (inv_step OK0 M0 P0 I) as G. rewrite ST in G. cbn [good] in G. destruct G as (ents' & b' & trees' & lk' & lost' & I' & AS).
  exists ents', b', trees', lk', lost'. split; [exact I'|]. split; [|exact AS]. intro M'. pose proof (still_early I' M') as EA'.
  pose proof (Forall2_len (i_ents I)) as LEN. pose proof (Forall2_len (i_ents I')) as LEN'.
  assert (TR : forall c, astep (abs ents trees lk (p_toks p)) = ACont c -> atrees c = trees') by (intros c E; rewrite AS in E; injection E as <-; now rewrite abs_trees).
  pose proof (step_cases (i_ctl I)) as SC. pose proof (i_stk I') as STK'. pose proof (i_stk I) as ISTK.
  inversion SC as
    [HD E | x stk HD E1 E2 E | x stk t ts HD E1 E2 E3 E4 E5 E | x stk s' c v HD E1 E2 E3 E4 E5 E6 E
     | x stk r1 lhs rhs popped below stk' g HD E1 E2 E3 E4 E5 E6 E7 E8 E9 E10 E11 E12 E13 E14 E | x stk HD E1 E2 E3 E4 E].
  - rewrite ST in E. unfold finish in E. match type of E with context [match ?m with _ => _ end] => destruct m end; discriminate.
  - rewrite ST in E. unfold finish in E. match type of E with context [match ?m with _ => _ end] => destruct m end; discriminate.
  - (* read *)
    rewrite ST in E. assert (TK : tok_ok t). { rewrite Forall_forall in OK0. apply OK0. rewrite <- (i_toks I), E4, !in_app_iff. right. right. now left. }
    destruct (read_token_ok TK (i_heap I)) as (v & e' & R1 & _ & _ & _ & _ & R2 & _ & _ & R3 & _). rewrite R1 in E. injection E as E. subst p'. cbn [p_stk p_env p_toks] in *.
    rewrite ISTK in STK'. apply ents_of in STK' as [<- <-].
    pose proof (abs_step I E1 HD E2) as AB. rewrite E3 in AB. cbn [tok_of] in AB. rewrite E5 in AB. cbv zeta in AB. change (a_toks (abs ents trees lk (p_toks p))) with (p_toks p) in AB. rewrite E4 in AB at 2. specialize (TR _ AB). unfold atrees in TR. cbn [a_stk] in TR. rewrite <- TR.
    pose proof (abs_trees lk (p_toks p) LEN) as AT. unfold atrees in AT. rewrite AT. assert (M : e_msg (p_env p) <> VNull) by (destruct R2 as (_ & R2 & _); congruence). destruct (X M) as [X1 X2].
    rewrite R3. split; [exact X1|]. eapply told_yields; [exact X2|symmetry; apply app_nil_r|exact R2].
  - (* shift *)
    rewrite ST in E. injection E as E. subst p'. cbn [p_stk p_env p_toks] in *. rewrite ISTK in STK'. change (?y :: rev ents ++ [b]) with ((y :: rev ents) ++ [b]) in STK'.
    destruct (X M') as [X1 X2]. destruct lk as [|k [|]]; [pose proof (i_look I) as L; rewrite E3 in L; destruct L| |pose proof (i_look I) as L; rewrite E3 in L; destruct L].
    set (y := mkEnt s' v (loc_of (e_lpos (p_env p)))) in *. change ((y :: rev ents) ++ [b]) with (rev [y] ++ rev ents ++ [b]) in STK'. rewrite app_assoc, <- rev_app_distr in STK'. apply ents_of in STK' as [<- <-].
    pose proof (abs_step I E1 HD E2) as AB. rewrite E3 in AB. cbn [tok_of] in AB. rewrite E4 in AB. cbv zeta in AB. cbn [a_look abs hd_error] in AB. specialize (TR _ AB).
    assert (TE : trees' = trees ++ [Leaf k]). { rewrite <- TR. pose proof (abs_trees [k] (p_toks p) LEN) as AT. unfold atrees in *. cbn [a_stk map snd rev] in *. f_equal. exact AT. }
    clear TR. rewrite TE in *. clear TE.
    assert (EN : ent y (Leaf k)). { pose proof (i_ents I') as F. apply Forall2_app_inv_l in F as (l1 & l2 & F1 & F2 & EQ). inversion F2 as [|? ? ? ? EN F3]; subst. inversion F3; subst. apply app_inj_tail in EQ as [_ ->]. exact EN. }
    split.
    + eapply held_join; [exact X1|]. econstructor; [left|constructor]. cbn [sem]. now rewrite (en_leaf EN eq_refl).
    + eapply told_yields; [exact X2|rewrite yields_app; reflexivity|repeat split].
  - (* reduce *)
    rewrite ST in E. destruct (act (Z.to_N r1) (map s_val popped) (set_loc (default_loc popped below) (p_env p))) as [v e'|e'|u] eqn:EACT.
    2:{ unfold finish in E. match type of E with context [match ?m with _ => _ end] => destruct m end; discriminate. }
    2: discriminate E.
    injection E as E. subst p'. cbn [p_stk p_env p_toks] in *. rewrite ISTK in E7. destruct (stack_split E7) as (ents1 & EE & EB). subst ents.
    destruct (Forall2_app_inv_l _ _ (i_ents I)) as (trees1 & tp & F1 & F2 & ->). change (map sym popped = rhs) in E8.
    pose proof (abs_reduce I HD E1 E2 E3 E4 E8 (Forall2_len F1) (Forall2_len F2) EB E9) as AB. specialize (TR _ AB). rewrite atrees_cons in TR.
    replace (atrees (mkA (combine (map s_state (rev ents1)) (rev trees1)) (hd_error lk) (p_toks p))) with trees1 in TR.
    2:{ unfold atrees. cbn [a_stk]. rewrite map_snd_combine, rev_involutive by (rewrite map_length, !rev_length; apply (Forall2_len F1)). reflexivity. }
    set (y := mkEnt g v (default_loc popped below)) in *. rewrite EB in STK'. change (y :: rev ents1 ++ [b]) with (rev [y] ++ rev ents1 ++ [b]) in STK'. rewrite app_assoc, <- rev_app_distr in STK'. apply ents_of in STK' as [<- <-]. subst trees'.
    assert (SY : sym y = lhs) by exact E10.
    assert (N2 : Z.to_N r1 <> 2%N).
    { intro R2. rewrite R2 in E4. rewrite production_2 in E4. injection E4 as <- _. pose proof (ea_ents EA') as NI. apply Forall_app in NI as [_ NI]. inversion NI as [|? ? NI1 _]; subst. apply NI1. exact SY. }
    assert (N1 : Z.to_N r1 <> 1%N) by lia.
    assert (EA : early e0 (p_env p) (ents1 ++ popped) (trees1 ++ tp)).
    { destruct (i_phase I) as [EA|LT]; [exact EA|]. exfalso. pose proof (i_look I) as ILOOK. destruct (late_top (i_ctl I) ISTK (i_ents I) LT) as (tl & ts & [(_ & x0 & EE & SX)|(k & y0 & x' & _ & _ & _ & PL & EE & SX)]);
        rewrite E1, EE in ISTK; cbn in ISTK; injection ISTK as -> ->; [|congruence]. rewrite SX in E3. exact (input_no_reduce ILOOK E3). }
    pose proof (all_held I X EA) as HH. destruct (held_app (Forall2_len F1) HH) as (k1 & H1 & H2).
    set (e := set_loc (default_loc popped below) (p_env p)) in *.
    assert (HE : heap e (fun x => cas x (map s_val popped) + ca x (e_msg e) + (cas x (map s_val ents1) + lca x (p_look p) + cas x (e_stmts e) + lost x + B x))).
    { eapply heap_ext; [exact (heap_loc (default_loc popped below) (i_heap I))|]. intro z. cbn beta. rewrite map_app, cas_app. change (e_msg e) with (e_msg (p_env p)). change (e_stmts e) with (e_stmts (p_env p)). lia. }
    assert (TY : typed (map s_val popped) rhs) by (rewrite <- E8; apply typed_of, (ents_typed F2)).
    assert (MO : msg_ok (e_msg e)) by exact (msg_of M0 (i_msg I)).
    pose proof (@actions_correct _ _ _ E4 N1 N2 _ _ _ TY MO HE) as AC. rewrite EACT in AC. destruct AC as [OW OH OM OMO OS OP OL OLP OPL OCP OSEM OBAD].
    assert (YY : yields (trees1 ++ [Node (Z.to_N r1) tp]) = yields (trees1 ++ tp) ++ []) by (rewrite !yields_app; cbn [yields flat_map yield]; now rewrite !app_nil_r).
    assert (CASE : err_eq e e' \/ Z.to_N r1 = 66%N /\ reported e e' /\ e_msg e' <> e_msg e /\ exists a, e_msg e' = VStr a (complaint 66 (map erase (map s_val popped)))).
    { destruct OM as [OM|(R66 & RP)]; [now left|]. rewrite R66 in EACT. destruct (act_66_says EACT) as [Q|(a & Q & QN)]; [now left|]. right. split; [exact R66|]. split; [exact RP|]. split; [|eauto].
      rewrite Q. intro EM. symmetry in EM. assert (LT : (a < e_next e)%N); [|lia]. apply (heap_next HE). cbn beta. rewrite EM. cbn [ca]. rewrite ind_refl. lia. }
    destruct OPL as (l & PLE & PLL). split.
    + rewrite PLE, app_length, PLL. eapply held_join; [exact H1|]. destruct (existsb carrier rhs) eqn:CR.
      * destruct (carrier_up E4 CR) as [CU|R56].
        -- econstructor; [right; rewrite SY; exact CU|constructor].
        -- exfalso. rewrite R56 in *. assert (RQ : rhs = [S_CREATE; S_TABLE; S_opt_not_exists; S_table_name; S_lpar; S_table_elem_commalist; S_rpar]) by (vm_compute in E4; injection E4 as _ E4; now rewrite <- E4).
           rewrite RQ in TY. pose proof (act_56_msg TY MO HE EACT) as MN. destruct CASE as [(_ & EM & _)|(R66 & _)]; [congruence|discriminate R66].
      * rewrite <- E8 in CR. pose proof (held_sems H2 CR) as SE. destruct CASE as [(_ & EM & _)|(R66 & _)].
        -- econstructor; [left; rewrite sem_node, SE; change (e_plist (p_env p)) with (e_plist e); rewrite (OSEM EM); reflexivity|]. change (e_plist e) with (e_plist (p_env p)). destruct (N.eqb (Z.to_N r1) 298); [rewrite Nat.add_comm|rewrite Nat.add_0_r]; constructor.
        -- econstructor; [right; rewrite SY; rewrite R66 in E4; vm_compute in E4; injection E4 as <- _; reflexivity|constructor].
    + destruct CASE as [EQ|(R66 & (_ & _ & RL & RC) & NM & a & MM)].
      * assert (M : e_msg (p_env p) <> VNull) by (destruct EQ as (_ & EM & _); change (e_msg e) with (e_msg (p_env p)) in EM; congruence). destruct (X M) as [_ X2]. eapply told_yields; [exact X2|exact YY|exact EQ].
      * assert (TN : told (trees1 ++ tp) e'); [|eapply told_yields; [exact TN|exact YY|repeat split]].
        assert (CR : existsb carrier (map sym popped) = false) by (rewrite E8; eapply checked_fact; [|exact E4]; rewrite R66; now left).
        eapply tell_new; [exact F2|exact E4|exact E8|exact N1|exact (held_sems H2 CR)|exact (OBAD NM)| |exact MM|exact RL|exact RC]. rewrite R66. reflexivity.
  - rewrite ST in E. unfold finish in E. match type of E with context [match ?m with _ => _ end] => destruct m end; discriminate.
Qed.
Lemma cause_stop p ents b trees lk lost r e : inv ts0 e0 B p ents b trees lk lost -> extra p ents trees -> step p = Stop r e -> r <> 0%Z ->
  astep (abs ents trees lk (p_toks p)) <> ASyntax -> astep (abs ents trees lk (p_toks p)) <> AExhausted -> told trees e.
Proof.
  intros I X ST R0 AS AX. pose proof (step_cases (i_ctl I)) as SC. pose proof (i_stk I) as ISTK.
  inversion SC as
    [HD E | x stk HD E1 E2 E | x stk t ts HD E1 E2 E3 E4 E5 E | x stk s' c v HD E1 E2 E3 E4 E5 E6 E
     | x stk r1 lhs rhs popped below stk' g HD E1 E2 E3 E4 E5 E6 E7 E8 E9 E10 E11 E12 E13 E14 E | x stk HD E1 E2 E3 E4 E].
  - destruct (AX (abs_exhausted I HD)).
  - exfalso. rewrite ST in E. unfold finish in E. match type of E with context [match ?m with _ => _ end] => destruct m end; congruence.
  - exfalso. rewrite ST in E. destruct (read_token t (p_env p)); discriminate.
  - exfalso. rewrite ST in E. discriminate.
  - rewrite ST in E. destruct (act (Z.to_N r1) (map s_val popped) _) as [v e1|e1|u] eqn:EACT; try discriminate E.
    assert (N2 : Z.to_N r1 <> 2%N) by (intro E2'; rewrite E2' in EACT; exact (Left.noerr_act2 EACT)).
    assert (EA : early e0 (p_env p) ents trees).
    { destruct (i_phase I) as [EA|LT]; [exact EA|]. exfalso. pose proof (i_look I) as ILOOK. destruct (late_top (i_ctl I) ISTK (i_ents I) LT) as (tl & ts & [(_ & x0 & EE & SX)|(k & y0 & x' & _ & _ & _ & PL & EE & SX)]);
        rewrite E1, EE in ISTK; cbn in ISTK; injection ISTK as -> ->; [|congruence]. rewrite SX in E3. exact (input_no_reduce ILOOK E3). }
    pose proof (all_held I X EA) as HH. pose proof (i_heap I) as IHEAP. rewrite ISTK in E7. destruct (stack_split E7) as (ents1 & EE & EB). rewrite EE in *.
    destruct (Forall2_app_inv_l _ _ (i_ents I)) as (trees1 & tp & F1 & F2 & ET). rewrite ET in *. change (map sym popped = rhs) in E8. destruct (held_app (Forall2_len F1) HH) as (k1 & H1 & H2).
    set (e' := set_loc (default_loc popped below) (p_env p)) in *.
    assert (HE : heap e' (fun x => cas x (map s_val popped) + ca x (e_msg e') + (cas x (map s_val ents1) + lca x (p_look p) + cas x (e_stmts e') + lost x + B x))).
    { eapply heap_ext; [exact (heap_loc (default_loc popped below) IHEAP)|]. intro z. cbn beta. rewrite map_app, cas_app. change (e_msg e') with (e_msg (p_env p)). change (e_stmts e') with (e_stmts (p_env p)). lia. }
    assert (TY : typed (map s_val popped) rhs) by (rewrite <- E8; apply typed_of, (ents_typed F2)).
    assert (MO : msg_ok (e_msg e')) by exact (msg_of M0 (i_msg I)).
    assert (N1 : Z.to_N r1 <> 1%N) by lia.
    pose proof (@actions_correct _ _ _ E4 N1 N2 _ _ _ TY MO HE) as AC. rewrite EACT in AC. destruct AC as [EH EM ES' EP ELP]. destruct EH as (lost' & EH & _).
    assert (CL : cleans (pop_error (below :: stk') ;; drop_look (p_look p)) (fun x => cas x (map s_val ents1) + lca x (p_look p)) (quiet (rev ents1))).
    { rewrite EB. eapply cleans_ext.
      - apply cleans_seq; [|apply (drop_look_cleans (i_look I))]. apply pop_error_cleans.
        + apply Forall_rev', (ents_typed F1).
        + eapply ents_rng. rewrite <- EB. eassumption.
        + rewrite <- EB. apply stack_shifts; eassumption.
      - intro y. cbn beta. rewrite map_rev, cas_rev. lia.
      - intro C. now rewrite andb_true_r. }
    destruct (@cleans_run _ _ _ e1 (fun x => ca x (e_msg e1) + lost' x + cas x (e_stmts e1) + lost x + B x) CL) as (e2 & lost2 & E2' & S2 & _ & _).
    { eapply heap_ext; [exact EH|]. intro z. cbn beta. rewrite ES'. lia. }
    change (finish 1 (pop_error (below :: stk') ;; drop_look (p_look p)) e1 = Stop r e) in E. unfold finish in E. rewrite E2' in E. destruct S2 as (_ & S2). injection E as _ ->.
    assert (TN : told (trees1 ++ tp) e1); [|eapply told_yields; [exact TN|symmetry; apply app_nil_r|exact S2]].
    destruct EM as [(_ & EQ & MN)|((_ & _ & RL & RC) & AN)].
    + change (e_msg e') with (e_msg (p_env p)) in MN. destruct (X MN) as [_ X2]. eapply told_yields; [exact X2|symmetry; apply app_nil_r|exact EQ].
    + pose proof (asem_checks AN) as [R66|CK]; [exfalso; rewrite <- R66 in EACT; exact (act_66_quiet EACT)|].
      assert (CR : existsb carrier (map sym popped) = false) by (rewrite E8; eapply checked_fact; [right; exact CK|exact E4]).
      destruct (act_says CK EACT) as (a & MM).
      eapply tell_new; [exact F2|exact E4|exact E8|exact N1|exact (held_sems H2 CR)|exact AN|reflexivity|exact MM|exact RL|exact RC].
  - exfalso. apply AS. pose proof (abs_step I E1 HD E2) as AB. rewrite E4 in AB. exact AB.
Qed.
Lemma run_cause n r e : forall p ents b trees lk lost, inv ts0 e0 B p ents b trees lk lost -> extra p ents trees -> run n p = PRet r e ->
  exists a, asteps (abs ents trees lk (p_toks p)) a /\ (r = 0%Z \/ why a r e /\ (astep a = ASyntax \/ astep a = AExhausted \/ told (atrees a) e)).
Proof.
  induction n as [|n IH]; intros p ents b trees lk lost I X E; [discriminate|]. cbn [run] in E. pose proof (inv_step OK0 M0 P0 I) as G.
  destruct (step p) as [p'|r' e'|u] eqn:ST; [|injection E as -> ->|discriminate].
  - destruct (cause_step I X ST) as (ents' & b' & trees' & lk' & lost' & I' & X' & AS). destruct (IH _ _ _ _ _ _ I' X' E) as (a & A & Y). exists a. split; [eapply as_step; eassumption|exact Y].
  - exists (abs ents trees lk (p_toks p)). split; [constructor|]. cbn [good] in G. destruct G as [(-> & _)|(RR & _ & W)]; [now left|right]. split; [exact W|].
    destruct (astep (abs ents trees lk (p_toks p))) eqn:AS; auto; right; right; rewrite (abs_trees _ _ (Forall2_len (i_ents I))); (eapply cause_stop; [exact I|exact X|exact ST|lia|rewrite AS; discriminate..]).
Qed.
Theorem yyparse_cause r e : ends_eof ts0 -> heap e0 (fun x => cas x (e_stmts e0) + B x) -> yyparse ts0 e0 = PRet r e ->
  exists a, asteps (astart ts0) a /\ (r = 0%Z \/ why a r e /\ (astep a = ASyntax \/ astep a = AExhausted \/ told (atrees a) e)).
Proof.
  intros EE H E. refine (@run_cause (parse_fuel (List.length ts0)) r e (parse_init ts0 e0) [] bottom [] [] (fun _ => 0) _ _ E); [now apply inv_init|]. intro M. destruct M. exact M0.
Qed.
End Cause.
