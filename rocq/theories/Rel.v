(** Two runs side by side: what the actions do depends only on the heap, the statements, the parameter list and the positions - not on the error
    fields and the recorded parameters of the result object (exceptions: rule 2, which records parameters, and rule 56, which reads the message).
    No code of /repo. *)
From Verif Require Export Frame.
Local Open Scope N_scope.
Set Implicit Arguments.
Unset Strict Implicit.

Record alike (e s : env) : Prop := {
  al_next : e_next e = e_next s; al_live : e_live e = e_live s; al_stmts : e_stmts e = e_stmts s; al_plist : e_plist e = e_plist s;
  al_loc : e_loc e = e_loc s; al_lpos : e_lpos e = e_lpos s }.

Section Rel.
Variable R : env -> env -> Prop.
Hypothesis R_alike : forall e s, R e s -> alike e s.
Hypothesis R_heap : forall n l e s, R e s -> R (set_heap n l e) (set_heap n l s).
Hypothesis R_stmts : forall l e s, R e s -> R (set_stmts l e) (set_stmts l s).
Hypothesis R_plist : forall l e s, R e s -> R (set_plist l e) (set_plist l s).
Hypothesis R_error : forall a m l c e s, R e s -> R (set_error (VStr a m) l c e) (set_error (VStr a m) l c s).
Hypothesis R_lpos : forall l e s, R e s -> R (set_lpos l e) (set_lpos l s).
Hypothesis R_loc : forall l e s, R e s -> R (set_loc l e) (set_loc l s).
Definition same_out A (x y : res A) : Prop :=
  match x, y with
  | ROk a e, ROk b s => a = b /\ R e s
  | RErr e, RErr s => R e s
  | RUB u, RUB v => u = v
  | _, _ => False
  end.
Definition rel A (m : M A) : Prop := forall e s, R e s -> same_out (m e) (m s).

Lemma r_ret A (a : A) : rel (ret a). Proof. intros e s H. now split. Qed.
Lemma r_fail A u : rel (@fail A u). Proof. intros e s H. reflexivity. Qed.
Lemma r_bind A B (m : M A) (k : A -> M B) : rel m -> (forall a, rel (k a)) -> rel (bind m k).
Proof.
  intros H K e s E. unfold bind. specialize (H e s E). unfold same_out in H. destruct (m e) as [a e'|e'|u], (m s) as [b s'|s'|v]; try destruct H.
  - subst b. apply K. assumption.
  - exact H.
  - reflexivity.
Qed.
Lemma r_alloc : rel alloc.
Proof. intros e s H. unfold alloc. destruct (R_alike H) as [A B _ _ _ _]. rewrite A, B. split; [reflexivity|]. now apply R_heap. Qed.
Lemma r_release a : rel (release a).
Proof. intros e s H. unfold release. destruct (R_alike H) as [A B _ _ _ _]. rewrite A, B. destruct (memN _ _); [split; [reflexivity|]; now apply R_heap|reflexivity]. Qed.
Lemma r_check a : rel (check a).
Proof. intros e s H. unfold check. destruct (R_alike H) as [A B _ _ _ _]. rewrite B. destruct (memN _ _); [now split|reflexivity]. Qed.
Lemma r_YYERROR A : rel (@YYERROR A). Proof. intros e s H. exact H. Qed.
Lemma r_plist : rel (fun e => ROk (e_plist e) e). Proof. intros e s H. split; [apply (R_alike H)|exact H]. Qed.
Lemma r_put_stmts g : rel (fun e => ROk tt (set_stmts (g (e_stmts e)) e)).
Proof. intros e s H. split; [reflexivity|]. rewrite (al_stmts (R_alike H)). apply R_stmts, H. Qed.
Lemma r_put_plist g : rel (fun e => ROk tt (set_plist (g (e_plist e)) e)).
Proof. intros e s H. split; [reflexivity|]. rewrite (al_plist (R_alike H)). apply R_plist, H. Qed.
Lemma r_get_total : rel (fun e => ROk (total (e_lpos e)) e). Proof. intros e s H. split; [now rewrite (al_lpos (R_alike H))|exact H]. Qed.
Lemma r_get_count : rel (fun e => ROk (Z.of_nat (List.length (e_plist e))) e). Proof. intros e s H. split; [now rewrite (al_plist (R_alike H))|exact H]. Qed.
Hint Resolve r_ret r_fail r_alloc r_release r_check r_YYERROR r_plist : rel.
Ltac fr := repeat first
  [ solve [auto with rel]
  | apply r_bind; [|intro]
  | match goal with |- rel (match ?x with _ => _ end) => destruct x end
  | match goal with |- rel (if ?x then _ else _) => destruct x end ].
Lemma r_deref v : rel (deref v). Proof. unfold deref. fr. Qed.
Lemma r_read_field f fs : rel (read_field f fs). Proof. unfold read_field. fr. Qed.
Hint Resolve r_deref r_read_field : rel.
Lemma r_getf f v : rel (getf f v). Proof. unfold getf. fr. Qed.
Lemma r_put f x v : rel (put f x v). Proof. unfold put. fr. Qed.
Hint Resolve r_getf r_put : rel.
Lemma r_puts l : forall v, rel (puts l v). Proof. induction l as [|[f x] l IH]; intro v; cbn [puts]; fr. Qed.
Lemma r_new c fs : rel (new c fs). Proof. unfold new. fr. Qed.
Lemma r_vnew : rel vnew. Proof. unfold vnew. fr. Qed.
Lemma r_snew s : rel (snew s). Proof. unfold snew. fr. Qed.
Lemma r_vpush x v : rel (vpush x v). Proof. unfold vpush. fr. Qed.
Lemma r_velems v : rel (velems v). Proof. unfold velems. fr. Qed.
Hint Resolve r_puts r_new r_vnew r_snew r_vpush r_velems : rel.
Lemma r_vback_put f x v : rel (vback_put f x v). Proof. unfold vback_put. fr. Qed.
Lemma r_cstr v : rel (cstr v). Proof. unfold cstr. fr. Qed.
Lemma r_is_null v : rel (Heap.is_null v). Proof. unfold Heap.is_null. fr. Qed.
Lemma r_as_int v : rel (as_int v). Proof. unfold as_int. fr. Qed.
Lemma r_as_enum v : rel (as_enum v). Proof. unfold as_enum. fr. Qed.
Lemma r_free v : rel (free_ v). Proof. unfold free_. fr. Qed.
Hint Resolve r_vback_put r_cstr r_is_null r_as_int r_as_enum r_free : rel.
Lemma r_free_all l : rel (free_all l). Proof. induction l; cbn [free_all]; fr. Qed.
Hint Resolve r_free_all : rel.
Lemma r_del_block v : rel (del_block v). Proof. unfold del_block. fr. Qed.
Lemma r_free_vec v : rel (free_vec v). Proof. unfold free_vec. fr. Qed.
Hint Resolve r_del_block r_free_vec : rel.
Lemma r_del_locking v : rel (del_locking v). Proof. unfold del_locking. fr. Qed.
Hint Resolve r_del_locking : rel.
Lemma r_del_sized n : forall v, (vsize v <= n)%nat -> rel (del v).
Proof.
  induction n as [|n IH]; intros v HS; [destruct v; cbn in HS; lia|]. destruct v as [| | | | | | |a c fs|a l|fs]; try (cbn [del]; solve [fr]). rewrite del_obj_eq. apply r_bind; [apply r_check|intro].
  apply r_bind; [|intro; apply r_release]. cbn [vsize] in HS. revert HS. induction fs as [|[f x] fs IHf]; intro HS; cbn [del_members]; [apply r_ret|]. apply r_bind; [|intro; apply IHf; lia].
  assert (HX : (vsize x <= n)%nat) by lia. clear HS IHf. destruct (dtor_how c f); [fr|fr|exact (IH _ HX)| |fr|fr|fr| |].
  - destruct x as [| | | | | | | |b l|]; try solve [fr]. apply r_bind; [apply r_check|intro]. apply r_bind; [|intro; apply r_release]. cbn [vsize] in HX. revert HX. induction l as [|y l IHl]; intro HX; [apply r_ret|].
    apply r_bind; [apply IH; lia|intro; apply IHl; lia].
  - destruct x as [| | | | | | | |b l|]; try solve [fr]. apply r_bind; [apply r_check|intro]. apply r_bind; [|intro; apply r_release]. clear HX. induction l as [|y l IHl]; [apply r_ret|]. apply r_bind; [apply r_del_locking|intro; apply IHl].
  - destruct x as [| | | | | | | |b l|]; try solve [fr]. apply r_bind; [apply r_check|intro]. apply r_bind; [|intro; apply r_release]. cbn [vsize] in HX. revert HX. induction l as [|y l IHl]; intro HX; [apply r_ret|].
    apply r_bind; [|intro; apply IHl; lia]. assert (HY : (vsize y <= n)%nat) by lia. clear HX IHl. destruct y as [| | | | | | |d cc us| |]; try solve [fr]. destruct cc; try solve [fr].
    apply r_bind; [apply r_check|intro]. apply r_bind; [|intro; apply r_release]. cbn [vsize] in HY. revert HY. induction us as [|[g z] us IHu]; intro HY; [apply r_ret|].
    assert (HZ : (vsize z <= n)%nat) by lia. assert (HU := IHu ltac:(lia)). destruct g; try exact HU; (apply r_bind; [first [apply r_free|exact (IH _ HZ)]|intro; exact HU]).
Qed.
Lemma r_del v : rel (del v). Proof. exact (r_del_sized (le_n _)). Qed.
Hint Resolve r_del : rel.
Lemma r_del_all l : rel (del_all l). Proof. induction l; cbn [del_all]; fr. Qed.
Lemma r_yyerror_at l c m : rel (yyerror_at l c m).
Proof.
  intros e s H. unfold yyerror_at, snew, bind. pose proof (r_alloc H) as A. destruct (alloc e) as [a e1|e1|u], (alloc s) as [b s1|s1|u']; cbn in A; try destruct A; cbn; subst; auto.
Qed.
Lemma r_yyerror m : rel (yyerror m).
Proof. intros e s H. unfold yyerror. rewrite (al_loc (R_alike H)). now apply r_yyerror_at. Qed.
Hint Resolve r_del_all r_yyerror r_yyerror_at : rel.
Lemma r_set_insert x v : rel (set_insert x v). Proof. unfold set_insert. fr. Qed.
Hint Resolve r_set_insert : rel.
Ltac un := unfold mkExpr, makeOpUnary, makeOpBinary, makeBetween, makeCaseList, makeCaseListElement, caseListAppend, makeCase, makeLiteralInt, makeLiteralFloat, makeLiteralString, makeLiteralBool,
  makeNullLiteral, makeDateLiteral, makeIntervalLiteral, makeColumnRef, makeColumnRef2, makeStar, makeStar1, makeFunctionRef, makeFunctionRef2, makeArray, makeArrayIndex, makeParameter, makeSelect,
  makeExists, makeInList, makeInSelect, makeExtract, makeCast, newColumnConstraints, add_constraint, add_reference, vec1, table_ref_of, mkExpr.
Lemma r_distribute l : forall a b, rel (distribute l a b).
Proof. induction l as [|x l IH]; intros a b; cbn [distribute]; fr. Qed.
Lemma r_trySet v : rel (trySetNullableExplicit v). Proof. unfold trySetNullableExplicit. cbv zeta. fr. Qed.
Hint Resolve r_distribute r_trySet : rel.
Lemma r_setColumns a v : rel (setColumnDefsAndConstraints a v). Proof. unfold setColumnDefsAndConstraints. fr. Qed.
Lemma r_accept_csv a v : rel (accept_csv_option a v). Proof. unfold accept_csv_option. cbv zeta. fr. Qed.
Lemma r_move a v : rel (move_options a v). Proof. unfold move_options. fr. Qed.
Lemma r_vback_puts l : forall v, rel (vback_puts l v). Proof. induction l as [|[f x] l IH]; intro v; cbn [vback_puts]; fr. Qed.
Hint Resolve r_setColumns r_accept_csv r_move r_vback_puts : rel.
Lemma r_add_set o l v : rel (add_set_operation o l v). Proof. unfold add_set_operation. fr. Qed.
Hint Resolve r_add_set : rel.
Lemma r_take v : rel (take_string_length v).
Proof. intros e s H. unfold take_string_length. cbv zeta. rewrite (al_lpos (R_alike H)). apply r_put. now apply R_lpos. Qed.
Hint Resolve r_take r_put_stmts r_put_plist : rel.
Lemma r_act r args : r <> 2 -> r <> 56 -> rel (act r args).
Proof.
  intros N3 N4. unfold act. cbv zeta. un.
  repeat match goal with
  | |- rel (match ?x with N0 => _ | Npos _ => _ end) => destruct x
  | |- rel (match ?x with xI _ => _ | xO _ => _ | xH => _ end) => destruct x
  end.
  all: try contradiction.
  all: repeat first
    [ solve [auto with rel]
    | apply r_bind; [|intro]
    | match goal with |- rel (match ?x with _ => _ end) => destruct x end
    | exact r_get_total
    | exact r_get_count
    | match goal with |- rel (fun e => ROk tt (set_plist (e_plist e ++ ?l) e)) => exact (r_put_plist (fun k => k ++ l)%list) end ].
Qed.
(** Rule 56 reads the message. *)
Lemma r_act_56 args : (forall e s, R e s -> e_msg e = e_msg s) -> rel (act 56 args).
Proof.
  intro RM. unfold act. cbv zeta. repeat (apply r_bind; [solve [fr]|intro]). apply r_bind; [intros e s H; split; [now apply RM|exact H]|intro]. fr.
Qed.
(** ** The driver *)
Lemma r_token_value v : rel (token_value v). Proof. unfold token_value. fr. Qed.
Hint Resolve r_token_value : rel.
Lemma r_read_token t : rel (read_token t).
Proof. unfold read_token. apply r_bind; [|intro; fr]. intros e s H. split; [reflexivity|]. rewrite (al_lpos (R_alike H)). now apply R_lpos. Qed.
Lemma r_yydestruct X v : rel (yydestruct X v). Proof. unfold yydestruct. fr. Qed.
Hint Resolve r_yydestruct : rel.
Lemma r_destruct_entry x : rel (destruct_entry x). Proof. unfold destruct_entry. fr. Qed.
Hint Resolve r_destruct_entry : rel.
Lemma r_pop_all l : rel (pop_all l). Proof. induction l as [|x l IH]; cbn [pop_all]; fr. Qed.
Lemma r_pop_error l : rel (pop_error l). Proof. induction l as [|x l IH]; cbn [pop_error]; fr. Qed.
Lemma r_drop_look l : rel (drop_look l). Proof. unfold drop_look. fr. Qed.
Hint Resolve r_pop_all r_pop_error r_drop_look : rel.
Definition same_step (x y : out) : Prop :=
  match x, y with
  | Cont p, Cont q => p_stk p = p_stk q /\ p_look p = p_look q /\ p_toks p = p_toks q /\ R (p_env p) (p_env q)
  | Stop r e, Stop r' s => r = r' /\ R e s
  | Undef u, Undef v => u = v
  | _, _ => False
  end.
Lemma r_finish r m e s : rel m -> R e s -> same_step (finish r m e) (finish r m s).
Proof. intros F H. unfold finish. specialize (F e s H). unfold same_out in F. destruct (m e), (m s); try destruct F; cbn; auto. Qed.
(** One round that does not reduce by rule 2 or 56. *)
Lemma r_step p e s : R e s ->
  (forall x l r, p_stk p = x :: l -> (List.length (p_stk p) < YYINITDEPTH)%nat -> s_state x <> YYFINAL -> decide (s_state x) (match p_look p with Some (c, _) => yytranslate_of c | None => None end) = Some (DReduce r) ->
     Z.to_N r <> 2 /\ (Z.to_N r = 56 -> forall e s, R e s -> e_msg e = e_msg s)) ->
  same_step (step (mkP (p_stk p) (p_look p) (p_toks p) e)) (step (mkP (p_stk p) (p_look p) (p_toks p) s)).
Proof.
  intros H NR. unfold step. cbv zeta. cbn [p_stk p_look p_toks p_env]. pose proof (R_alike H) as AL. rewrite <- (al_lpos AL). destruct (p_stk p) as [|top stk]; [reflexivity|].
  destruct (Nat.leb_spec YYINITDEPTH (List.length (top :: stk))) as [|LD]; [apply r_finish; [fr|exact H]|].
  destruct (Z.eqb_spec (s_state top) YYFINAL) as [|NF]; [apply r_finish; [fr|exact H]|]. specialize (NR top stk).
  destruct (decide _ _) as [[|s'|r|]|]; [..|reflexivity].
  - destruct (p_toks p) as [|t ts]; [reflexivity|]. pose proof (r_read_token t H) as G. unfold same_out in G. destruct (read_token t e), (read_token t s); try destruct G; cbn; subst; auto.
  - destruct (p_look p) as [[c v]|]; [|reflexivity]. cbn. auto.
  - specialize (NR r eq_refl LD NF eq_refl). destruct (get yyr2 r) as [n|]; [|reflexivity]. destruct (get yyr1 r) as [nt|]; [|reflexivity]. destruct (skipn _ _) as [|below stk']; [reflexivity|].
    assert (RA : forall args, rel (act (Z.to_N r) args)).
    { intro args. destruct (N.eq_dec (Z.to_N r) 56) as [E|E]; [rewrite E in *; apply r_act_56; now apply NR|apply r_act; [apply NR|exact E]]. }
    match goal with |- context [act ?r ?a (set_loc ?l e)] => pose proof (RA a _ _ (R_loc l H)) as G; unfold same_out in G; destruct (act r a (set_loc l e)), (act r a (set_loc l s)) end; try destruct G; cbn; subst; auto.
    + destruct (goto_of _ _); cbn; auto.
    + apply r_finish; [fr|assumption].
  - apply r_finish; [fr|exact H].
Qed.
End Rel.
