(** The same call at another place of the heap: a parse does the same in every machine, up to the addresses of the blocks it allocates.
    No code of /repo. *)
From Verif Require Import ParseProof.
From Verif Require Export Rel Poke.
From Coq Require Import ZifyBool ZifyNat ZifyN.
Local Open Scope N_scope.
Set Implicit Arguments.
Unset Strict Implicit.

(** ** The value [v] with its blocks at other addresses: [g a] instead of [a] *)
Fixpoint mv (g : N -> N) (v : val) : val :=
  match v with
  | VStr a s => VStr (g a) s
  | VObj a c fs => VObj (g a) c (map (fun p => (fst p, mv g (snd p))) fs)
  | VVec a l => VVec (g a) (map (mv g) l)
  | VRec fs => VRec (map (fun p => (fst p, mv g (snd p))) fs)
  | _ => v
  end.
Definition mvf (g : N -> N) (fs : list (fld * val)) : list (fld * val) := map (fun p => (fst p, mv g (snd p))) fs.
Definition mvp (g : N -> N) (p : N * Z) : N * Z := (g (fst p), snd p).

(** Whether the location of the current rule has to agree (within an action; the driver sets it before every action). *)
Definition is_on (k : bool) : Prop := match k with true => True | false => False end.
Section Move.
Variable lk : bool.
Variable d : N.
Variable L0 : list N.
Variable S0 : list val.
Hypothesis L0_small : forall x, In x L0 -> x < d.
Hypothesis S0_small : forall x, d <= x -> cas x S0 = 0%nat.
Notation g := (fun a => a + d).
Notation m := (mv g).
(** [e]: the machine that starts with an empty heap; [s]: the one that starts with the blocks [L0] and the statements [S0]. *)
Record R (e s : env) : Prop := {
  R_next : e_next s = e_next e + d; R_live : e_live s = (map g (e_live e) ++ L0)%list; R_stmts : e_stmts s = (S0 ++ map m (e_stmts e))%list;
  R_msg : e_msg s = m (e_msg e); R_pos : e_msg e = VNull \/ (e_line s = e_line e /\ e_col s = e_col e);
  R_params : e_params s = map (mvp g) (e_params e); R_plist : e_plist s = map g (e_plist e); R_loc : is_on lk -> e_loc s = e_loc e; R_lpos : e_lpos s = e_lpos e }.
Definition out2 A B (V : A -> B) (x : res A) (y : res B) : Prop :=
  match x, y with
  | ROk a e, ROk b s => b = V a /\ R e s
  | RErr e, RErr s => R e s
  | RUB u, RUB v => u = v
  | _, _ => False
  end.
Definition rel2 A B (V : A -> B) (x : M A) (y : M B) : Prop := forall e s, R e s -> out2 V (x e) (y s).
Definition same A (a : A) : A := a.

Lemma q_ret A B (V : A -> B) a b : b = V a -> rel2 V (ret a) (ret b). Proof. intros E e s H. now split. Qed.
Lemma q_fail A B (V : A -> B) u : rel2 V (fail u) (fail u). Proof. intros e s H. reflexivity. Qed.
Lemma q_bind A A' B B' (V : A -> A') (W : B -> B') x x' k k' : rel2 V x x' -> (forall a, rel2 W (k a) (k' (V a))) -> rel2 W (bind x k) (bind x' k').
Proof.
  intros H K e s E. unfold bind. specialize (H e s E). unfold out2 in H. destruct (x e) as [a e'|e'|u], (x' s) as [b s'|s'|v]; try (exfalso; exact H).
  - destruct H as [-> H]. apply K. exact H.
  - exact H.
  - exact H.
Qed.
Lemma mem_move a l : memN (a + d) (map g l ++ L0) = memN a l.
Proof using L0_small.
  clear S0_small. induction l as [|b l IH]; cbn [map app memN].
  - destruct (memN (a + d) L0) eqn:E; [|reflexivity]. exfalso. assert (I : In (a + d) L0) by (clear - E; induction L0 as [|b l IH]; cbn [memN] in E; [discriminate|]; apply orb_prop in E as [E|E]; [left; lia|right; auto]). specialize (L0_small I). lia.
  - rewrite IH. f_equal. lia.
Qed.
Lemma remove_move a l : memN a l = true -> removeN (a + d) (map g l ++ L0) = (map g (removeN a l) ++ L0)%list.
Proof.
  clear. induction l as [|b l IH]; cbn [map app memN removeN]; [discriminate|]. intro E. replace (a + d =? b + d) with (a =? b) by lia. destruct (a =? b) eqn:Q; [reflexivity|]. cbn [map app]. f_equal. apply IH. exact E.
Qed.
Lemma q_alloc : rel2 g alloc alloc.
Proof. intros e s [H1 H2 H3 H4 H5 H6 H7 H8 H9]. unfold alloc. split; [exact H1|]. constructor; cbn; auto; [lia|]. rewrite H1, H2. reflexivity. Qed.
Lemma q_release a : rel2 (@same unit) (release a) (release (a + d)).
Proof.
  intros e s H. unfold release. rewrite (R_live H), mem_move. destruct (memN a (e_live e)) eqn:E; [|reflexivity]. split; [reflexivity|]. destruct H as [H1 H2 H3 H4 H5 H6 H7 H8 H9]. constructor; cbn; auto. apply remove_move. exact E.
Qed.
Lemma q_check a : rel2 (@same unit) (check a) (check (a + d)).
Proof. intros e s H. unfold check. rewrite (R_live H), mem_move. destruct (memN a (e_live e)); [now split|reflexivity]. Qed.
Lemma q_YYERROR A B (V : A -> B) : rel2 V YYERROR YYERROR. Proof. intros e s H. exact H. Qed.
Create HintDb mvdb.
Hint Resolve q_fail q_alloc q_release q_check q_YYERROR : mvdb.
Lemma lookup_mv f fs : lookup f (mvf g fs) = option_map m (lookup f fs).
Proof. induction fs as [|[h y] fs IH]; [reflexivity|]. cbn [mvf map fst snd lookup]. destruct (fld_beq f h); [reflexivity|exact IH]. Qed.
Lemma update_mv f x fs : update f (m x) (mvf g fs) = mvf g (update f x fs).
Proof. induction fs as [|[h y] fs IH]; [reflexivity|]. cbn [mvf map fst snd update]. destruct (fld_beq f h); [reflexivity|]. cbn [mvf map fst snd]. f_equal. exact IH. Qed.
Lemma enum_mv x y : enum_is (m x) (m y) = enum_is x y.
Proof. destruct x, y; reflexivity. Qed.
Lemma enum_mv1 x y : m y = y -> enum_is (m x) y = enum_is x y. Proof. intro E. rewrite <- E at 1. apply enum_mv. Qed.
Lemma enums_mv x l : existsb (enum_is (m x)) (map m l) = existsb (enum_is x) l.
Proof. induction l as [|y l IH]; [reflexivity|]. cbn [map existsb]. rewrite enum_mv, IH. reflexivity. Qed.
Lemma q_deref v : rel2 (@same unit) (deref v) (deref (m v)).
Proof. destruct v; cbn [mv deref]; auto with mvdb. Qed.
Lemma q_read_field f fs : rel2 m (read_field f fs) (read_field f (mvf g fs)).
Proof. unfold read_field. rewrite lookup_mv. destruct (lookup f fs) as [v|]; cbn [option_map]; [|auto with mvdb]. destruct v; cbn [mv]; try apply q_ret; try apply q_fail; reflexivity. Qed.
Lemma q_getf f v : rel2 m (getf f v) (getf f (m v)).
Proof. destruct v; cbn [mv getf]; auto with mvdb; [eapply q_bind; [apply q_check|intro; apply q_read_field]|apply q_read_field]. Qed.
Lemma q_put f x v : rel2 m (put f x v) (put f (m x) (m v)).
Proof.
  destruct v; cbn [mv put]; auto with mvdb. eapply q_bind; [apply q_check|intro]. fold (mvf g fs). rewrite lookup_mv. destruct (lookup f fs); cbn [option_map]; [|auto with mvdb].
  apply q_ret. cbn [mv]. fold (mvf g (update f x fs)). rewrite update_mv. reflexivity.
Qed.
Lemma q_puts l : forall l' v, l' = mvf g l -> rel2 m (puts l v) (puts l' (m v)).
Proof. induction l as [|[f x] l IH]; intros l' v ->; cbn [mvf map puts fst snd]; [apply q_ret; reflexivity|]. eapply q_bind; [apply q_put|intro; apply IH; reflexivity]. Qed.
Lemma q_new c fs fs' : fs' = mvf g fs -> rel2 m (new c fs) (new c fs').
Proof. intros ->. unfold new. eapply q_bind; [apply q_alloc|intro; apply q_ret; reflexivity]. Qed.
Lemma q_vnew : rel2 m vnew vnew. Proof. unfold vnew. eapply q_bind; [apply q_alloc|intro; apply q_ret; reflexivity]. Qed.
Lemma q_snew s : rel2 m (snew s) (snew s). Proof. unfold snew. eapply q_bind; [apply q_alloc|intro; apply q_ret; reflexivity]. Qed.
Lemma q_vpush x v : rel2 m (vpush x v) (vpush (m x) (m v)).
Proof. destruct v; cbn [mv vpush]; auto with mvdb. eapply q_bind; [apply q_check|intro; apply q_ret]. cbn [mv]. rewrite map_app. reflexivity. Qed.
Lemma q_velems v : rel2 (map m) (velems v) (velems (m v)).
Proof. destruct v; cbn [mv velems]; auto with mvdb. eapply q_bind; [apply q_check|intro; apply q_ret]. reflexivity. Qed.
Lemma q_vback_put f x v : rel2 m (vback_put f x v) (vback_put f (m x) (m v)).
Proof.
  destruct v; cbn [mv vback_put]; auto with mvdb. eapply q_bind; [apply q_check|intro]. rewrite <- map_rev. destruct (rev l) as [|y r]; cbn [map]; [auto with mvdb|]. eapply q_bind; [apply q_put|intro; apply q_ret].
  cbn [mv]. rewrite map_app, <- map_rev. reflexivity.
Qed.
Lemma q_cstr v : rel2 (@same bytes) (cstr v) (cstr (m v)).
Proof. destruct v; cbn [mv cstr]; auto with mvdb. eapply q_bind; [apply q_check|intro; apply q_ret; reflexivity]. Qed.
Lemma q_is_null v : rel2 (@same bool) (Heap.is_null v) (Heap.is_null (m v)).
Proof. destruct v; cbn [mv Heap.is_null]; auto with mvdb; apply q_ret; reflexivity. Qed.
Lemma q_as_int v : rel2 (@same Z) (as_int v) (as_int (m v)). Proof. destruct v; cbn [mv as_int]; auto with mvdb; apply q_ret; reflexivity. Qed.
Lemma q_as_enum v : rel2 m (as_enum v) (as_enum (m v)). Proof. destruct v; cbn [mv as_enum]; auto with mvdb; apply q_ret; reflexivity. Qed.
Lemma q_free v : rel2 (@same unit) (free_ v) (free_ (m v)). Proof. destruct v; cbn [mv free_]; auto with mvdb; apply q_ret; reflexivity. Qed.
Lemma q_tt : rel2 (@same unit) (ret tt) (ret tt). Proof. apply q_ret. reflexivity. Qed.
Hint Resolve q_deref q_getf q_put q_vnew q_snew q_vpush q_velems q_vback_put q_cstr q_is_null q_as_int q_as_enum q_free q_tt : mvdb.
Lemma q_free_all l : rel2 (@same unit) (free_all l) (free_all (map m l)).
Proof. induction l; cbn [map free_all]; [apply q_ret; reflexivity|]. eapply q_bind; [apply q_free|intro; assumption]. Qed.
Lemma q_del_block v : rel2 (@same unit) (del_block v) (del_block (m v)). Proof. destruct v; cbn [mv del_block]; auto with mvdb; apply q_ret; reflexivity. Qed.
Lemma q_free_vec v : rel2 (@same unit) (free_vec v) (free_vec (m v)).
Proof. destruct v; cbn [mv free_vec]; auto with mvdb. eapply q_bind; [apply q_check|intro]. eapply q_bind; [apply q_free_all|intro; apply q_release]. Qed.
Hint Resolve q_free_all q_del_block q_free_vec : mvdb.
Lemma q_del_locking v : rel2 (@same unit) (del_locking v) (del_locking (m v)).
Proof. unfold del_locking. eapply q_bind; [apply q_getf|intro]. eapply q_bind; [apply q_free_vec|intro; apply q_del_block]. Qed.
Lemma q_del_sized n : forall v, (vsize v <= n)%nat -> rel2 (@same unit) (del v) (del (m v)).
Proof.
  induction n as [|n IH]; intros v HS; [destruct v; cbn in HS; lia|]. destruct v as [| | | | | | |a c fs|a l|fs]; try (cbn [mv del]; solve [auto with mvdb]). cbn [mv]. fold (mvf g fs). rewrite !del_obj_eq. eapply q_bind; [apply q_check|intro].
  eapply q_bind; [|intro; apply q_release]. cbn [vsize] in HS. revert HS. induction fs as [|[f x] fs IHf]; intro HS; cbn [mvf map fst snd del_members]; [apply q_tt|]. eapply q_bind; [|intro; apply IHf; lia].
  assert (HX : (vsize x <= n)%nat) by lia. clear HS IHf. destruct (dtor_how c f); [apply q_tt|apply q_free|exact (IH _ HX)| |apply q_free_vec| |apply q_del_block| |].
  - destruct x as [| | | | | | | |b l|]; cbn [mv]; auto with mvdb. eapply q_bind; [apply q_check|intro]. eapply q_bind; [|intro; apply q_release]. cbn [vsize] in HX. revert HX. induction l as [|y l IHl]; intro HX; cbn [map]; [apply q_tt|].
    eapply q_bind; [apply IH; lia|intro; apply IHl; lia].
  - destruct x as [| | | | | | | |b l|]; cbn [mv]; auto with mvdb; first [apply (q_free_vec (VInt _))|apply (q_free_vec (VBool _))|apply (q_free_vec (VEnum _ _))|apply (q_free_vec (VFlt _))|apply (q_free_vec (VStr _ _))|apply (q_free_vec (VObj _ _ _))|apply (q_free_vec (VVec _ _))|apply (q_free_vec (VRec _))|apply (q_free_vec VUninit)].
  - destruct x as [| | | | | | | |b l|]; cbn [mv]; auto with mvdb. eapply q_bind; [apply q_check|intro]. eapply q_bind; [|intro; apply q_release]. clear HX. induction l as [|y l IHl]; cbn [map]; [apply q_tt|]. eapply q_bind; [apply q_del_locking|intro; apply IHl].
  - destruct x as [| | | | | | | |b l|]; cbn [mv]; auto with mvdb. eapply q_bind; [apply q_check|intro]. eapply q_bind; [|intro; apply q_release]. cbn [vsize] in HX. revert HX. induction l as [|y l IHl]; intro HX; cbn [map]; [apply q_tt|].
    eapply q_bind; [|intro; apply IHl; lia]. assert (HY : (vsize y <= n)%nat) by lia. clear HX IHl. destruct y as [| | | | | | |dd cc us| |]; cbn [mv]; auto with mvdb. destruct cc; auto with mvdb.
    eapply q_bind; [apply q_check|intro]. eapply q_bind; [|intro; apply q_release]. cbn [vsize] in HY. revert HY. induction us as [|[h z] us IHu]; intro HY; cbn [map fst snd]; [apply q_tt|].
    assert (HZ : (vsize z <= n)%nat) by lia. assert (HU := IHu ltac:(lia)). destruct h; try exact HU; (eapply q_bind; [first [apply q_free|exact (IH _ HZ)]|intro; exact HU]).
Qed.
Lemma q_del v : rel2 (@same unit) (del v) (del (m v)). Proof. exact (q_del_sized (le_n _)). Qed.
Hint Resolve q_del q_del_locking : mvdb.
Lemma q_del_all l : rel2 (@same unit) (del_all l) (del_all (map m l)).
Proof. induction l; cbn [map del_all]; [apply q_tt|]. eapply q_bind; [apply q_del|intro; assumption]. Qed.
Lemma q_yyerror_at l c t : rel2 (@same unit) (yyerror_at l c t) (yyerror_at l c t).
Proof.
  unfold yyerror_at. eapply q_bind; [apply q_snew|intro a]. intros e s H. split; [reflexivity|]. destruct H as [H1 H2 H3 H4 H5 H6 H7 H8 H9]. constructor; cbn; auto.
Qed.
Hypothesis LK : is_on lk.
Lemma q_yyerror t : rel2 (@same unit) (yyerror t) (yyerror t).
Proof. intros e s H. unfold yyerror. rewrite (R_loc H LK). now apply q_yyerror_at. Qed.
Hint Resolve q_del_all q_yyerror q_yyerror_at : mvdb.
Lemma q_set_insert x v : rel2 m (set_insert x v) (set_insert (m x) (m v)).
Proof. destruct v; cbn [mv set_insert]; auto with mvdb. eapply q_bind; [apply q_check|intro; apply q_ret]. rewrite enums_mv. destruct (existsb (enum_is x) l); cbn [mv]; [reflexivity|]. rewrite map_app. reflexivity. Qed.
Definition m2 (p : val * val) : val * val := (m (fst p), m (snd p)).
Lemma q_distribute l : forall a b, rel2 m2 (distribute l a b) (distribute (map m l) (m a) (m b)).
Proof.
  induction l as [|x l IH]; intros a b; cbn [map distribute]; [apply q_ret; reflexivity|]. eapply q_bind; [apply q_deref|intros _].
  destruct x as [| | | | | | |p c fs| |]; try apply IH. pose proof (fun w => q_vpush (VObj p c fs) w) as P. cbn [mv] in *. destruct c; try apply IH; (eapply q_bind; [apply P|intro; apply IH]).
Qed.
Definition mb (p : bool * val) : bool * val := (fst p, m (snd p)).
Lemma q_trySet v : rel2 mb (trySetNullableExplicit v) (trySetNullableExplicit (m v)).
Proof.
  unfold trySetNullableExplicit. eapply q_bind; [apply q_getf|intro cc]. eapply q_bind; [apply q_velems|intro l]. cbv zeta.
  change NotNull with (m NotNull). change PrimaryKey with (m PrimaryKey). change CNull with (m CNull). rewrite !enums_mv. cbn [mv].
  destruct (_ || _); [|apply q_ret; reflexivity]. destruct (existsb _ _); [apply q_ret; reflexivity|]. eapply q_bind; [exact (q_put F_nullable (VBool false) v)|intro; apply q_ret; reflexivity].
Qed.
Lemma q_setColumns a v : rel2 m (setColumnDefsAndConstraints a v) (setColumnDefsAndConstraints (m a) (m v)).
Proof.
  unfold setColumnDefsAndConstraints. eapply q_bind; [apply q_vnew|intro]. eapply q_bind; [apply q_put|intro]. eapply q_bind; [apply q_vnew|intro]. eapply q_bind; [apply q_put|intro]. eapply q_bind; [apply q_velems|intro].
  eapply q_bind; [apply q_distribute|intro p]. cbn [m2 fst snd]. eapply q_bind; [apply q_put|intro]. apply q_put.
Qed.
Lemma q_accept_csv a v : rel2 (option_map m) (accept_csv_option a v) (accept_csv_option (m a) (m v)).
Proof.
  unfold accept_csv_option. eapply q_bind; [apply q_getf|intro]. eapply q_bind; [apply q_as_enum|intro k]. cbv zeta. rewrite !enum_mv1 by reflexivity. eapply q_bind; [apply q_getf|intro]. eapply q_bind; [apply q_is_null|intro n]. unfold same. destruct n; [|apply q_ret; reflexivity].
  eapply q_bind; [apply q_getf|intro]. eapply q_bind; [apply q_put|intro]. apply q_ret. reflexivity.
Qed.
Lemma q_move a v : rel2 m (move_options a v) (move_options (m a) (m v)).
Proof.
  unfold move_options. eapply q_bind; [apply q_getf|intro enc]. eapply q_bind; [apply q_is_null|intro n]. unfold same. eapply q_bind with (V := m2).
  { destruct n; [apply q_ret; reflexivity|]. eapply q_bind; [apply q_put|intro]. eapply q_bind; [exact (q_put F_encoding VNull a)|intro]. apply q_ret. reflexivity. }
  intro p. cbn [m2 fst snd]. eapply q_bind; [apply q_getf|intro csv]. eapply q_bind; [apply q_is_null|intro k]. unfold same. eapply q_bind with (V := m2).
  { destruct k; [apply q_ret; reflexivity|]. eapply q_bind; [apply q_put|intro]. eapply q_bind; [exact (q_put F_csv_options VNull (snd p))|intro]. apply q_ret. reflexivity. }
  intro q. cbn [m2 fst snd]. eapply q_bind; [apply q_del|intro]. apply q_ret. reflexivity.
Qed.
Lemma q_vback_puts l : forall l' v, l' = mvf g l -> rel2 m (vback_puts l v) (vback_puts l' (m v)).
Proof. induction l as [|[f x] l IH]; intros l' v ->; cbn [mvf map fst snd vback_puts]; [apply q_ret; reflexivity|]. eapply q_bind; [apply q_vback_put|intro; apply IH; reflexivity]. Qed.
Lemma q_add_set o l l' v : l' = mvf g l -> rel2 m (add_set_operation o l v) (add_set_operation (m o) l' (m v)).
Proof.
  intro E. unfold add_set_operation. eapply q_bind; [apply q_getf|intro so]. eapply q_bind; [apply q_is_null|intro n]. unfold same. eapply q_bind with (V := m); [destruct n; [apply q_vnew|apply q_ret; reflexivity]|intro w].
  eapply q_bind; [apply q_vpush|intro]. eapply q_bind; [apply q_vback_puts; exact E|intro]. apply q_put.
Qed.
Lemma q_lpos A B (V : A -> B) h h' p p' : (forall e s, R e s -> p s = p' e) -> rel2 V h h' -> rel2 V (fun e => h (set_lpos (p' e) e)) (fun e => h' (set_lpos (p e) e)).
Proof. intros P H e s E. specialize (P e s E). apply H. rewrite P. destruct E as [H1 H2 H3 H4 H5 H6 H7 H8 H9]. constructor; cbn; auto. Qed.
Lemma q_take v : rel2 m (take_string_length v) (take_string_length (m v)).
Proof.
  intros e s H. unfold take_string_length. cbv zeta. rewrite (R_lpos H). apply (q_put F_stringLength (VInt _) v). destruct H as [H1 H2 H3 H4 H5 H6 H7 H8 H9]. constructor; cbn; auto.
Qed.
Hint Resolve q_set_insert q_distribute q_trySet q_setColumns q_accept_csv q_move q_take : mvdb.
Lemma q_count : rel2 (@same Z) (fun e => ROk (Z.of_nat (List.length (e_plist e))) e) (fun e => ROk (Z.of_nat (List.length (e_plist e))) e).
Proof. intros e s H. split; [|exact H]. unfold same. rewrite (R_plist H), map_length. reflexivity. Qed.
Lemma q_total : rel2 (@same Z) (fun e => ROk (total (e_lpos e)) e) (fun e => ROk (total (e_lpos e)) e).
Proof. intros e s H. split; [|exact H]. unfold same. rewrite (R_lpos H). reflexivity. Qed.
Lemma q_plist a : rel2 (@same unit) (fun e => ROk tt (set_plist (e_plist e ++ [a]) e)) (fun e => ROk tt (set_plist (e_plist e ++ [a + d]) e)).
Proof. intros e s H. split; [reflexivity|]. destruct H as [H1 H2 H3 H4 H5 H6 H7 H8 H9]. constructor; cbn; auto. rewrite H7, map_app. reflexivity. Qed.
Lemma q_stmts l : rel2 (@same unit) (fun e => ROk tt (set_stmts (e_stmts e ++ l) e)) (fun e => ROk tt (set_stmts (e_stmts e ++ map m l) e)).
Proof. intros e s H. split; [reflexivity|]. destruct H as [H1 H2 H3 H4 H5 H6 H7 H8 H9]. constructor; cbn; auto. rewrite H3, map_app, app_assoc. reflexivity. Qed.
Lemma q_msg : rel2 m (fun e => ROk (e_msg e) e) (fun e => ROk (e_msg e) e).
Proof. intros e s H. split; [exact (R_msg H)|exact H]. Qed.
(** *** Numbering the parameters *)
Lemma poke_mv a x v : poke (a + d) F_ival (VInt x) (m v) = m (poke a F_ival (VInt x) v).
Proof.
  assert (K : forall n v, (vsize v <= n)%nat -> poke (a + d) F_ival (VInt x) (m v) = m (poke a F_ival (VInt x) v)); [|exact (K _ v (le_n _))].
  clear. induction n as [|n IH]; intros v HS; [destruct v; cbn in HS; lia|]. destruct v as [| | | | | | |b c fs|b l|fs]; try reflexivity.
  - cbn [mv]. fold (mvf g fs). rewrite !poke_obj. cbn [mv]. replace (a + d =? b + d) with (a =? b) by lia. f_equal. cbn [vsize] in HS.
    assert (E : on_fields (poke (a + d) F_ival (VInt x)) (mvf g fs) = mvf g (on_fields (poke a F_ival (VInt x)) fs)).
    { unfold on_fields, mvf. rewrite !map_map. cbn [fst snd]. revert HS. induction fs as [|[f y] fs IHf]; intro HS; [reflexivity|]. cbn [map fst snd]. rewrite IH by lia. rewrite IHf by lia. reflexivity. }
    destruct (a =? b); fold (mvf g (update F_ival (VInt x) (on_fields (poke a F_ival (VInt x)) fs))); fold (mvf g (on_fields (poke a F_ival (VInt x)) fs)); rewrite E; [|reflexivity]. rewrite <- (@update_mv F_ival (VInt x)). reflexivity.
  - cbn [mv poke]. f_equal. cbn [vsize] in HS. rewrite !map_map. revert HS. induction l as [|y l IHl]; intro HS; [reflexivity|]. cbn [map]. rewrite IH by lia. rewrite IHl by lia. reflexivity.
  - cbn [mv]. fold (mvf g fs). rewrite !poke_rec. cbn [mv]. f_equal. cbn [vsize] in HS. unfold on_fields, mvf. rewrite !map_map. cbn [fst snd]. revert HS. induction fs as [|[f y] fs IHf]; intro HS; [reflexivity|]. cbn [map fst snd]. rewrite IH by lia. rewrite IHf by lia. reflexivity.
Qed.
Lemma insert_mv p l : insert_param (mvp g p) (map (mvp g) l) = map (mvp g) (insert_param p l).
Proof. induction l as [|q l IH]; [reflexivity|]. cbn [map insert_param mvp snd]. destruct (snd p <? snd q)%Z; [reflexivity|]. cbn [map]. f_equal. exact IH. Qed.
Lemma q_addParameter a z : rel2 (@same unit) (addParameter a z) (addParameter (a + d) z).
Proof.
  intros e s H. unfold addParameter. rewrite (R_params H), (R_live H). assert (F : forall l, forallb (fun p => memN (fst p) (map g (e_live e) ++ L0)) (map (mvp g) l) = forallb (fun p => memN (fst p) (e_live e)) l).
  { induction l as [|p l IH]; [reflexivity|]. cbn [map forallb mvp fst]. rewrite mem_move, IH. reflexivity. }
  destruct (e_params e) as [|q l] eqn:E; cbn [map].
  - split; [reflexivity|]. destruct H as [H1 H2 H3 H4 H5 H6 H7 H8 H9]. constructor; cbn; auto.
  - change ((a + d, z) :: mvp g q :: map (mvp g) l) with (map (mvp g) ((a, z) :: q :: l)). rewrite F. destruct (forallb _ _); [|reflexivity]. split; [reflexivity|]. destruct H as [H1 H2 H3 H4 H5 H6 H7 H8 H9]. constructor; cbn [set_params e_params e_next e_live e_stmts e_msg e_line e_col e_plist e_loc e_lpos]; auto.
    change (mvp g q :: map (mvp g) l) with (map (mvp g) (q :: l)). exact (insert_mv (a, z) (q :: l)).
Qed.
Lemma q_poke a z : rel2 (@same unit) (fun e => ROk tt (set_stmts (map (poke a F_ival (VInt z)) (e_stmts e)) e)) (fun e => ROk tt (set_stmts (map (poke (a + d) F_ival (VInt z)) (e_stmts e)) e)).
Proof.
  intros e s H. split; [reflexivity|]. destruct H as [H1 H2 H3 H4 H5 H6 H7 H8 H9]. constructor; cbn; auto. rewrite H3, map_app. f_equal.
  - apply (poke_absents z). apply S0_small. lia.
  - rewrite !map_map. apply map_ext. intro v. apply poke_mv.
Qed.
Lemma q_number l : forall z, rel2 (@same unit) (number_params l z) (number_params (map g l) z).
Proof.
  induction l as [|a l IH]; intro z; cbn [map number_params]; [apply q_tt|]. eapply q_bind; [apply q_check|intros _]. eapply q_bind; [apply q_poke|intros _]. eapply q_bind; [apply q_addParameter|intros _]. apply IH.
Qed.
Lemma q_number_all : rel2 (@same unit) (fun e => number_params (e_plist e) 0%Z e) (fun e => number_params (e_plist e) 0%Z e).
Proof. intros e s H. rewrite (R_plist H). apply q_number. exact H. Qed.
(** *** The actions *)
Lemma unit_mv u f : unit_of u = Some f -> m f = f.
Proof. unfold unit_of. repeat match goal with |- context [if ?b then _ else _] => destruct b; [intro E; injection E as <-; reflexivity|] end. discriminate. Qed.
Ltac qq := repeat first
  [ progress (unfold same, mb, m2; cbn [fst snd])
  | solve [auto with mvdb]
  | match goal with
    | |- rel2 _ vnew _ => exact q_vnew
    | |- rel2 _ (match unit_of ?u with _ => _ end) _ => let E := fresh in destruct (unit_of u) eqn:E; [apply unit_mv in E|]
    | |- rel2 _ (put _ (match ?a with _ => _ end) _) _ => destruct a; cbn [option_map]
    | |- rel2 _ (ret tt) _ => exact q_tt
    | |- rel2 _ (ret _) _ => solve [apply q_ret; reflexivity]
    | |- rel2 _ (ret (if _ then _ else _)) _ => solve [apply q_ret; repeat match goal with |- context [if ?b then _ else _] => destruct b end; reflexivity]
    | |- rel2 _ (fail _) _ => apply q_fail
    | |- rel2 _ YYERROR _ => apply q_YYERROR
    | |- rel2 _ (puts _ ?v) (puts _ _) => solve [apply (@q_puts _ _ v); first [reflexivity|cbn; congruence]]
    | |- rel2 _ (new _ _) _ => solve [apply q_new; reflexivity]
    | |- rel2 _ (put ?f ?x ?v) _ => exact (q_put f x v)
    | |- rel2 _ (getf ?f ?v) _ => exact (q_getf f v)
    | |- rel2 _ (vpush ?x ?v) _ => exact (q_vpush x v)
    | |- rel2 _ (set_insert ?x ?v) _ => exact (q_set_insert x v)
    | |- rel2 _ (as_enum ?v) _ => exact (q_as_enum v)
    | |- rel2 _ (add_set_operation ?o _ ?v) _ => solve [apply (@q_add_set o _ _ v); reflexivity]
    | |- rel2 _ (bind _ _) _ => eapply q_bind; [|intro; cbv beta]
    | |- rel2 _ (if ?x then _ else _) _ => rewrite ?(@enum_mv1 _ _ eq_refl); destruct x
    | |- rel2 _ (match ?x with _ => _ end) _ => destruct x; cbn [option_map]
    end ].
Lemma nth_mv args i : nth i (map m args) VUninit = m (nth i args VUninit).
Proof. change VUninit with (m VUninit) at 1. apply map_nth. Qed.
Lemma q_act r args : r <> 2 -> r <> 56 -> r <> 298 -> rel2 m (act r args) (act r (map m args)).
Proof.
  intros N1 N2 N3. unfold act. cbv zeta. unfold mkExpr, makeOpUnary, makeOpBinary, makeBetween, makeCaseList, makeCaseListElement, caseListAppend, makeCase, makeLiteralInt, makeLiteralFloat, makeLiteralString, makeLiteralBool,
  makeNullLiteral, makeDateLiteral, makeIntervalLiteral, makeColumnRef, makeColumnRef2, makeStar, makeStar1, makeFunctionRef, makeFunctionRef2, makeArray, makeArrayIndex, makeParameter, makeSelect,
  makeExists, makeInList, makeInSelect, makeExtract, makeCast, newColumnConstraints, add_constraint, add_reference, vec1, table_ref_of, mkExpr.
  rewrite !nth_mv.
  repeat match goal with
  | |- rel2 _ (match ?x with N0 => _ | Npos _ => _ end) _ => destruct x
  | |- rel2 _ (match ?x with xI _ => _ | xO _ => _ | xH => _ end) _ => destruct x
  end.
  all: try contradiction.
  all: qq.
Qed.
Lemma q_act_2 args : rel2 m (act 2 args) (act 2 (map m args)).
Proof.
  unfold act. cbv zeta. rewrite !nth_mv. eapply q_bind; [apply q_velems|intro l]. eapply q_bind; [apply q_stmts|intros _]. eapply q_bind; [apply q_number_all|intros _]. eapply q_bind; [apply q_del_block|intros _]. apply q_ret. reflexivity.
Qed.
Lemma q_act_56 args : rel2 m (act 56 args) (act 56 (map m args)).
Proof. unfold act. cbv zeta. rewrite !nth_mv. repeat (eapply q_bind; [solve [qq]|intro; cbv beta]). eapply q_bind; [exact q_msg|intro; cbv beta]. qq. Qed.
Lemma q_act_298 args : rel2 m (act 298 args) (act 298 (map m args)).
Proof.
  unfold act. cbv zeta. eapply q_bind; [exact q_total|intro c; unfold same]. eapply q_bind; [unfold makeParameter, mkExpr; qq|intro v]. eapply q_bind; [exact q_count|intro n; unfold same]. eapply q_bind; [exact (q_put F_ival2 (VInt n) v)|intro w].
  destruct w; cbn [mv]; try apply q_fail. eapply q_bind; [apply q_plist|intros _]. apply q_ret. reflexivity.
Qed.
Lemma q_act_all r args : rel2 m (act r args) (act r (map m args)).
Proof.
  destruct (N.eq_dec r 2) as [->|N1]; [apply q_act_2|]. destruct (N.eq_dec r 56) as [->|N2]; [apply q_act_56|]. destruct (N.eq_dec r 298) as [->|N3]; [apply q_act_298|]. now apply q_act.
Qed.
(** *** The driver *)
Definition mve (x : entry) : entry := mkEnt (s_state x) (m (s_val x)) (s_loc x).
Definition mvl (l : Z * val) : Z * val := (fst l, m (snd l)).
Lemma q_token_value v : rel2 m (token_value v) (token_value v).
Proof. destruct v; cbn [token_value]; try (apply q_ret; reflexivity). apply q_snew. Qed.
Lemma q_read_token t : rel2 mvl (read_token t) (read_token t).
Proof using L0_small S0_small.
  clear LK. unfold read_token. eapply q_bind with (V := @same unit).
  - intros e s H. split; [reflexivity|]. rewrite (R_lpos H). destruct H as [H1 H2 H3 H4 H5 H6 H7 H8 H9]. constructor; cbn; auto.
  - intros _. eapply q_bind; [apply q_token_value|intro]. apply q_ret. reflexivity.
Qed.
Lemma q_yydestruct X v : rel2 (@same unit) (yydestruct X v) (yydestruct X (m v)).
Proof.
  unfold yydestruct. destruct (find _ _) as [[X' k]|]; [|apply q_tt]. repeat match goal with |- rel2 _ (if ?b then _ else _) _ => destruct b end; try solve [qq].
Qed.
Lemma q_destruct_entry x : rel2 (@same unit) (destruct_entry x) (destruct_entry (mve x)).
Proof. unfold destruct_entry. cbn [mve s_state s_val]. destruct (get yystos (s_state x)); [apply q_yydestruct|apply q_fail]. Qed.
Lemma q_pop_all l : rel2 (@same unit) (pop_all l) (pop_all (map mve l)).
Proof. induction l as [|x l IH]; cbn [map pop_all]; [apply q_tt|]. destruct l; cbn [map]; [apply q_tt|]. eapply q_bind; [apply q_destruct_entry|intros _; exact IH]. Qed.
Lemma q_pop_error l : rel2 (@same unit) (pop_error l) (pop_error (map mve l)).
Proof.
  induction l as [|x l IH]; cbn [map pop_error]; [apply q_fail|]. cbn [mve s_state]. destruct (error_shift (s_state x)) as [[]|]; [apply q_fail| |apply q_fail]. destruct l; cbn [map]; [apply q_tt|]. eapply q_bind; [apply q_destruct_entry|intros _; exact IH].
Qed.
Lemma q_drop_look l : rel2 (@same unit) (drop_look l) (drop_look (option_map mvl l)).
Proof. unfold drop_look. destruct l as [[c v]|]; cbn [option_map mvl fst snd]; [|apply q_tt]. destruct (yytranslate_of c); [apply q_yydestruct|apply q_fail]. Qed.
End Move.

Section Driver.
Variable d : N.
Variable L0 : list N.
Variable S0 : list val.
Hypothesis L0_small : forall x, In x L0 -> x < d.
Hypothesis S0_small : forall x, d <= x -> cas x S0 = 0%nat.
Notation m := (mv (fun a => a + d)).
Notation mve := (@mve d).
Notation mvl := (@mvl d).
Notation R := (@R false d L0 S0).
Notation rel2 := (@rel2 false d L0 S0).
Lemma off e s : Move.R true d L0 S0 e s -> R e s.
Proof. intros [H1 H2 H3 H4 H5 H6 H7 H8 H9]. constructor; auto. intros []. Qed.
Lemma on lc e s : R e s -> Move.R true d L0 S0 (set_loc lc e) (set_loc lc s).
Proof. intros [H1 H2 H3 H4 H5 H6 H7 H8 H9]. constructor; cbn; auto. Qed.
Lemma f_drop l : rel2 (@same unit) (drop_look l) (drop_look (option_map mvl l)). Proof. now apply q_drop_look. Qed.
Lemma f_pop_all l : rel2 (@same unit) (pop_all l) (pop_all (map mve l)). Proof. now apply q_pop_all. Qed.
Lemma f_pop_error l : rel2 (@same unit) (pop_error l) (pop_error (map mve l)). Proof. now apply q_pop_error. Qed.
Lemma f_yyerror l c t : rel2 (@same unit) (yyerror_at l c t) (yyerror_at l c t). Proof. now apply q_yyerror_at. Qed.
Lemma f_read t e s : R e s -> @out2 false d L0 S0 _ _ mvl (read_token t e) (read_token t s). Proof. now apply q_read_token. Qed.
Lemma f_bind A A' (V : A -> A') x x' (k : A -> M unit) k' : rel2 V x x' -> (forall a, rel2 (@same unit) (k a) (k' (V a))) -> rel2 (@same unit) (bind x k) (bind x' k').
Proof. intros H1 H2. eapply q_bind; [exact H1|exact H2]. Qed.
Lemma f_act r args e s : Move.R true d L0 S0 e s -> @out2 true d L0 S0 _ _ m (act r args e) (act r (map m args) s).
Proof. intro H. exact (@q_act_all true d L0 S0 L0_small S0_small Logic.I r args e s H). Qed.
Definition out3 (x y : out) : Prop :=
  match x, y with
  | Cont p, Cont q => p_stk q = map mve (p_stk p) /\ p_look q = option_map mvl (p_look p) /\ p_toks q = p_toks p /\ R (p_env p) (p_env q)
  | Stop r e, Stop r' s => r' = r /\ R e s
  | Undef u, Undef v => u = v
  | _, _ => False
  end.
Lemma q_finish r x y e s : rel2 (@same unit) x y -> R e s -> out3 (finish r x e) (finish r y s).
Proof. intros F H. unfold finish. specialize (F e s H). unfold out2 in F. destruct (x e), (y s); try (exfalso; exact F); cbn; auto. split; [reflexivity|apply F]. Qed.
Lemma q_step p q : p_stk q = map mve (p_stk p) -> p_look q = option_map mvl (p_look p) -> p_toks q = p_toks p -> R (p_env p) (p_env q) -> out3 (step p) (step q).
Proof.
  destruct p as [stk look toks e], q as [stk2 look2 toks2 s]. cbn [p_stk p_look p_toks p_env]. intros -> -> -> H. unfold step. cbv zeta. cbn [p_stk p_look p_toks p_env]. destruct stk as [|top stk]; [reflexivity|].
  change (map mve (top :: stk)) with (mve top :: map mve stk) at 1. cbn match. change (s_state (mve top)) with (s_state top). rewrite map_length. rewrite (R_lpos H).
  destruct (YYINITDEPTH <=? List.length (top :: stk))%nat.
  { apply q_finish; [|exact H]. eapply f_bind; [apply f_yyerror|intros _]. eapply f_bind; [apply f_drop|intros _; apply f_pop_all]. }
  destruct (s_state top =? YYFINAL)%Z. { apply q_finish; [|exact H]. eapply f_bind; [apply f_drop|intros _; apply f_pop_all]. }
  assert (TL : match option_map mvl look with Some (c, _) => yytranslate_of c | None => None end = match look with Some (c, _) => yytranslate_of c | None => None end) by (destruct look as [[c v]|]; reflexivity). rewrite TL.
  destruct (decide _ _) as [[|s'|r|]|]; [..|reflexivity].
  - destruct toks as [|t ts]; [reflexivity|]. pose proof (f_read t H) as G. unfold out2 in G. destruct (read_token t e), (read_token t s); try (exfalso; exact G); cbn; auto. destruct G as [-> G]. auto.
  - destruct look as [[c v]|]; [|reflexivity]. cbn. auto.
  - destruct (get yyr2 r) as [n|]; [|reflexivity]. destruct (get yyr1 r) as [nt|]; [|reflexivity]. rewrite skipn_map, firstn_map, <- map_rev. destruct (skipn _ _) as [|below stk']; [reflexivity|]. cbn [map].
    assert (DL : default_loc (map mve (rev (firstn (Z.to_nat n) (top :: stk)))) (mve below) = default_loc (rev (firstn (Z.to_nat n) (top :: stk))) below).
    { unfold default_loc. destruct (rev _) as [|x l]; [reflexivity|]. cbn [map]. f_equal; change (mve x :: map mve l) with (map mve (x :: l)); generalize (x :: l) as k; induction k as [|y k IH]; try reflexivity; cbn [map last] in *; destruct k; try reflexivity; exact IH. }
    rewrite DL. set (lc := default_loc _ below). pose proof (on lc H) as HL.
    assert (MA : map s_val (map mve (rev (firstn (Z.to_nat n) (top :: stk)))) = map m (map s_val (rev (firstn (Z.to_nat n) (top :: stk))))) by (rewrite !map_map; reflexivity). rewrite MA.
    pose proof (@f_act (Z.to_N r) (map s_val (rev (firstn (Z.to_nat n) (top :: stk)))) _ _ HL) as G. unfold out2 in G. destruct (act _ _ (set_loc lc e)), (act _ _ (set_loc lc s)); try (exfalso; exact G).
    + destruct G as [-> G]. apply off in G. change (s_state (mve below)) with (s_state below). destruct (goto_of _ _); cbn; auto.
    + apply q_finish; [|exact (off G)]. eapply f_bind; [exact (f_pop_error (below :: stk'))|intros _; apply f_drop].
    + exact G.
  - apply q_finish; [|exact H]. eapply f_bind; [apply f_yyerror|intros _]. eapply f_bind; [exact (f_pop_error (top :: stk))|intros _; apply f_drop].
Qed.
Definition ret3 (x y : parse_out) : Prop :=
  match x, y with
  | PRet r e, PRet r' s => r' = r /\ R e s
  | PUB u, PUB v => u = v
  | PFuel, PFuel => True
  | _, _ => False
  end.
Lemma q_run n : forall p q, p_stk q = map mve (p_stk p) -> p_look q = option_map mvl (p_look p) -> p_toks q = p_toks p -> R (p_env p) (p_env q) -> ret3 (run n p) (run n q).
Proof.
  induction n as [|n IH]; intros p q A B C D; [exact I|]. cbn [run]. pose proof (q_step A B C D) as G. unfold out3 in G. destruct (step p), (step q); try (exfalso; exact G); [apply IH; tauto|exact G|exact G].
Qed.
Lemma q_parse buf1 buf2 sql e s : R (parse_env e) (parse_env s) -> ret3 (parse buf1 sql e) (parse buf2 sql s).
Proof.
  intro H. unfold parse. rewrite (lex_all_buf buf1), (lex_all_buf buf2). destruct (lex_all [] sql) as [ts|]; [|reflexivity].
  assert (G : ret3 (yyparse ts e) (yyparse ts s)).
  { unfold yyparse. apply q_run; cbn [parse_init p_stk p_look p_toks p_env]; try reflexivity. exact H. }
  unfold ret3 in G. destruct (yyparse ts e), (yyparse ts s); try (exfalso; exact G); try exact G. destruct G as [-> G]. split; [reflexivity|]. destruct G as [H1 H2 H3 H4 H5 H6 H7 H8 H9]. constructor; cbn; auto.
Qed.
End Driver.
