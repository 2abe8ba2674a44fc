(** What the actions leave alone, whatever their arguments: a predicate on the machine that survives allocation, release and updates of the
    result object survives every action.  No code of /repo. *)
From Verif Require Export Base BisonTables LexModel Ast Heap Actions ParseModel Own.
Local Open Scope N_scope.
Set Implicit Arguments.
Unset Strict Implicit.

(** The messages of the semantic checks. *)
Definition check_messages : list bytes :=
  [la "File type is unknown."; la "File type must only be provided once."; la "CSV options (DELIMITER, NULL, QUOTE) are only allowed for CSV files.";
   la "Encoding type must only be provided once."; la "CSV options (DELIMITER, NULL, QUOTE) cannot be provided more than once."; la "Unknown CSV option.";
   la "Expected NULLS FIRST or NULLS LAST ordering."; la "Parameter ? is not a valid literal."; la "Found incorrect date format. Expected format: YYYY-MM-DD";
   la "Found incorrect interval format. Expected format: INTEGER"; la "Found incorrect interval format. Expected format: INTEGER INTERVAL_QUALIIFIER"; la "Interval qualifier is unknown."].
Definition check_message (m : bytes) : Prop := In m check_messages \/ exists s, m = (la "Conflicting nullability constraints for " ++ s)%list.

Section Frame.
Variable P : env -> Prop.
Hypothesis P_alloc : forall e, P e -> P (set_heap (e_next e + 1) (e_next e :: e_live e) e).
Hypothesis P_release : forall a e, P e -> P (set_heap (e_next e) (removeN a (e_live e)) e).
Hypothesis P_stmts : forall l e, P e -> P (set_stmts l e).
Hypothesis P_params : forall l e, P e -> P (set_params l e).
Hypothesis P_plist : forall l e, P e -> P (set_plist l e).
Hypothesis P_error : forall a m l c e, P e -> check_message m -> P (set_error (VStr a m) l c e).
Definition frame A (m : M A) : Prop := forall e, P e -> match m e with ROk _ e' => P e' | RErr e' => P e' | RUB _ => True end.

Lemma f_ret A (a : A) : frame (ret a). Proof. intros e H. exact H. Qed.
Lemma f_fail A u : frame (@fail A u). Proof. intros e H. exact I. Qed.
Lemma f_bind A B (m : M A) (k : A -> M B) : frame m -> (forall a, frame (k a)) -> frame (bind m k).
Proof. intros H K e PE. unfold bind. specialize (H e PE). destruct (m e) as [a e'|e'|u]; [apply K|..]; assumption. Qed.
Lemma f_alloc : frame alloc. Proof. intros e H. cbn. auto. Qed.
Lemma f_release a : frame (release a). Proof. intros e H. unfold release. destruct (memN _ _); [auto|exact I]. Qed.
Lemma f_check a : frame (check a). Proof. intros e H. unfold check. destruct (memN _ _); [auto|exact I]. Qed.
Lemma f_YYERROR A : frame (@YYERROR A). Proof. intros e H. exact H. Qed.
Lemma f_get A (g : env -> A) : frame (fun e => ROk (g e) e). Proof. intros e H. exact H. Qed.
Lemma f_put_stmts g : frame (fun e => ROk tt (set_stmts (g e) e)). Proof. intros e H. apply P_stmts, H. Qed.
Lemma f_put_plist g : frame (fun e => ROk tt (set_plist (g e) e)). Proof. intros e H. apply P_plist, H. Qed.
Lemma f_env A (m : env -> M A) : (forall x, frame (m x)) -> frame (fun e => m e e). Proof. intros F e H. apply F, H. Qed.
Hint Resolve f_ret f_fail f_alloc f_release f_check f_YYERROR : frame.
Ltac fr := repeat first
  [ solve [auto with frame]
  | apply f_bind; [|intro]
  | match goal with |- frame (match ?x with _ => _ end) => destruct x end
  | match goal with |- frame (if ?x then _ else _) => destruct x end ].
Lemma f_deref v : frame (deref v). Proof. unfold deref. fr. Qed.
Lemma f_read_field f fs : frame (read_field f fs). Proof. unfold read_field. fr. Qed.
Hint Resolve f_deref f_read_field : frame.
Lemma f_getf f v : frame (getf f v). Proof. unfold getf. fr. Qed.
Lemma f_put f x v : frame (put f x v). Proof. unfold put. fr. Qed.
Hint Resolve f_getf f_put : frame.
Lemma f_puts l : forall v, frame (puts l v). Proof. induction l as [|[f x] l IH]; intro v; cbn [puts]; fr. Qed.
Lemma f_new c fs : frame (new c fs). Proof. unfold new. fr. Qed.
Lemma f_vnew : frame vnew. Proof. unfold vnew. fr. Qed.
Lemma f_snew s : frame (snew s). Proof. unfold snew. fr. Qed.
Lemma f_vpush x v : frame (vpush x v). Proof. unfold vpush. fr. Qed.
Lemma f_velems v : frame (velems v). Proof. unfold velems. fr. Qed.
Hint Resolve f_puts f_new f_vnew f_snew f_vpush f_velems : frame.
Lemma f_vback_put f x v : frame (vback_put f x v). Proof. unfold vback_put. fr. Qed.
Lemma f_cstr v : frame (cstr v). Proof. unfold cstr. fr. Qed.
Lemma f_is_null v : frame (Heap.is_null v). Proof. unfold Heap.is_null. fr. Qed.
Lemma f_as_int v : frame (as_int v). Proof. unfold as_int. fr. Qed.
Lemma f_as_enum v : frame (as_enum v). Proof. unfold as_enum. fr. Qed.
Lemma f_free v : frame (free_ v). Proof. unfold free_. fr. Qed.
Hint Resolve f_vback_put f_cstr f_is_null f_as_int f_as_enum f_free : frame.
Lemma f_free_all l : frame (free_all l). Proof. induction l; cbn [free_all]; fr. Qed.
Hint Resolve f_free_all : frame.
Lemma f_del_block v : frame (del_block v). Proof. unfold del_block. fr. Qed.
Lemma f_free_vec v : frame (free_vec v). Proof. unfold free_vec. fr. Qed.
Hint Resolve f_del_block f_free_vec : frame.
Lemma f_del_locking v : frame (del_locking v). Proof. unfold del_locking. fr. Qed.
Hint Resolve f_del_locking : frame.
Lemma f_del_sized n : forall v, (vsize v <= n)%nat -> frame (del v).
Proof using P_release.
  clear P_alloc P_stmts P_params P_plist P_error. induction n as [|n IH]; intros v HS; [destruct v; cbn in HS; lia|]. destruct v as [| | | | | | |a c fs|a l|fs]; try (cbn [del]; solve [fr]). rewrite del_obj_eq. apply f_bind; [apply f_check|intro].
  apply f_bind; [|intro; apply f_release]. cbn [vsize] in HS. revert HS. induction fs as [|[f x] fs IHf]; intro HS; cbn [del_members]; [apply f_ret|]. apply f_bind; [|intro; apply IHf; lia].
  assert (HX : (vsize x <= n)%nat) by lia. clear HS IHf. destruct (dtor_how c f); [fr|fr|exact (IH _ HX)| |fr|fr|fr| |].
  - destruct x as [| | | | | | | |b l|]; try solve [fr]. apply f_bind; [apply f_check|intro]. apply f_bind; [|intro; apply f_release]. cbn [vsize] in HX. revert HX. induction l as [|y l IHl]; intro HX; [apply f_ret|].
    apply f_bind; [apply IH; lia|intro; apply IHl; lia].
  - destruct x as [| | | | | | | |b l|]; try solve [fr]. apply f_bind; [apply f_check|intro]. apply f_bind; [|intro; apply f_release]. clear HX. induction l as [|y l IHl]; [apply f_ret|]. apply f_bind; [apply f_del_locking|intro; apply IHl].
  - destruct x as [| | | | | | | |b l|]; try solve [fr]. apply f_bind; [apply f_check|intro]. apply f_bind; [|intro; apply f_release]. cbn [vsize] in HX. revert HX. induction l as [|y l IHl]; intro HX; [apply f_ret|].
    apply f_bind; [|intro; apply IHl; lia]. assert (HY : (vsize y <= n)%nat) by lia. clear HX IHl. destruct y as [| | | | | | |d cc us| |]; try solve [fr]. destruct cc; try solve [fr].
    apply f_bind; [apply f_check|intro]. apply f_bind; [|intro; apply f_release]. cbn [vsize] in HY. revert HY. induction us as [|[g z] us IHu]; intro HY; [apply f_ret|].
    assert (HZ : (vsize z <= n)%nat) by lia. assert (HU := IHu ltac:(lia)). destruct g; try exact HU; (apply f_bind; [first [apply f_free|exact (IH _ HZ)]|intro; exact HU]).
Qed.
Lemma f_del v : frame (del v). Proof using P_release. exact (f_del_sized (le_n _)). Qed.
Hint Resolve f_del : frame.
Lemma f_del_all l : frame (del_all l). Proof. induction l; cbn [del_all]; fr. Qed.
Lemma f_yyerror m : check_message m -> frame (yyerror m).
Proof. intros C e H. unfold yyerror, yyerror_at, bind, snew, bind, alloc, ret. cbn. apply P_error; [apply P_alloc, H|exact C]. Qed.
Hint Resolve f_del_all : frame.
Lemma f_set_insert x v : frame (set_insert x v). Proof. unfold set_insert. fr. Qed.
Hint Resolve f_set_insert : frame.
Ltac un := unfold mkExpr, makeOpUnary, makeOpBinary, makeBetween, makeCaseList, makeCaseListElement, caseListAppend, makeCase, makeLiteralInt, makeLiteralFloat, makeLiteralString, makeLiteralBool,
  makeNullLiteral, makeDateLiteral, makeIntervalLiteral, makeColumnRef, makeColumnRef2, makeStar, makeStar1, makeFunctionRef, makeFunctionRef2, makeArray, makeArrayIndex, makeParameter, makeSelect,
  makeExists, makeInList, makeInSelect, makeExtract, makeCast, newColumnConstraints, add_constraint, add_reference, vec1, table_ref_of, mkExpr.
Lemma f_distribute l : forall a b, frame (distribute l a b).
Proof. induction l as [|x l IH]; intros a b; cbn [distribute]; fr. Qed.
Lemma f_trySet v : frame (trySetNullableExplicit v). Proof. unfold trySetNullableExplicit. cbv zeta. fr. Qed.
Hint Resolve f_distribute f_trySet : frame.
Lemma f_setColumns a v : frame (setColumnDefsAndConstraints a v). Proof. unfold setColumnDefsAndConstraints. fr. Qed.
Lemma f_accept_csv a v : frame (accept_csv_option a v). Proof. unfold accept_csv_option. cbv zeta. fr. Qed.
Lemma f_move a v : frame (move_options a v). Proof. unfold move_options. fr. Qed.
Lemma f_vback_puts l : forall v, frame (vback_puts l v). Proof. induction l as [|[f x] l IH]; intro v; cbn [vback_puts]; fr. Qed.
Hint Resolve f_setColumns f_accept_csv f_move f_vback_puts : frame.
Lemma f_add_set o l v : frame (add_set_operation o l v). Proof. unfold add_set_operation. fr. Qed.
Hint Resolve f_add_set : frame.
Lemma f_addParameter a z : frame (addParameter a z).
Proof. intros e H. unfold addParameter. destruct (e_params e); [auto|]. destruct (forallb _ _); [auto|exact I]. Qed.
Hint Resolve f_addParameter : frame.
Lemma f_number l : forall z, frame (number_params l z).
Proof. induction l as [|a l IH]; intro z; cbn [number_params]; [fr|]. apply f_bind; [fr|intro]. apply f_bind; [apply f_put_stmts|intro]. fr. Qed.
Hint Resolve f_number f_put_stmts f_put_plist f_get : frame.
Ltac msg := first [left; cbn [check_messages In]; solve [repeat (first [left; reflexivity|right])] | right; eexists; reflexivity].
Lemma f_act r args : r <> 3 -> r <> 4 -> frame (act r args).
Proof.
  intros N3 N4. unfold act. cbv zeta. un.
  repeat match goal with
  | |- frame (match ?x with N0 => _ | Npos _ => _ end) => destruct x
  | |- frame (match ?x with xI _ => _ | xO _ => _ | xH => _ end) => destruct x
  end.
  all: try contradiction.
  all: repeat first
    [ solve [auto with frame]
    | apply f_yyerror; msg
    | apply f_bind; [|intro]
    | match goal with |- frame (match ?x with _ => _ end) => destruct x end
    | match goal with |- frame (fun e => number_params (@?g e) ?z e) => apply (f_env (m := fun x => number_params (g x) z)); intro end ].
Qed.
Hypothesis P_lpos : forall l e, P e -> P (set_lpos l e).
Lemma f_take v : frame (take_string_length v).
Proof. intros e H. unfold take_string_length. cbv zeta. apply f_put. apply P_lpos, H. Qed.
Hint Resolve f_take : frame.
Lemma f_act_all r args : frame (act r args).
Proof.
  destruct (N.eq_dec r 3) as [->|N3]; [unfold act; cbv zeta; unfold vec1; fr|]. destruct (N.eq_dec r 4) as [->|N4]; [unfold act; cbv zeta; fr|]. exact (f_act args N3 N4).
Qed.
(** ** The driver *)
Hypothesis P_loc : forall l e, P e -> P (set_loc l e).
Lemma f_token_value v : frame (token_value v). Proof. unfold token_value. fr. Qed.
Hint Resolve f_token_value : frame.
Lemma f_read_token t : frame (read_token t).
Proof. unfold read_token. apply f_bind; [|intro; fr]. intros e H. apply P_lpos, H. Qed.
Lemma f_yydestruct X v : frame (yydestruct X v). Proof. unfold yydestruct. fr. Qed.
Hint Resolve f_yydestruct : frame.
Lemma f_destruct_entry x : frame (destruct_entry x). Proof. unfold destruct_entry. fr. Qed.
Hint Resolve f_destruct_entry : frame.
Lemma f_pop_all l : frame (pop_all l). Proof. induction l as [|x l IH]; cbn [pop_all]; fr. Qed.
Lemma f_pop_error l : frame (pop_error l). Proof. induction l as [|x l IH]; cbn [pop_error]; fr. Qed.
Lemma f_drop_look l : frame (drop_look l). Proof. unfold drop_look. fr. Qed.
Hint Resolve f_pop_all f_pop_error f_drop_look : frame.
Lemma f_finish r m e : frame m -> P e -> (exists e', finish r m e = Stop r e' /\ P e') \/ exists u, finish r m e = Undef u.
Proof. intros F H. unfold finish. specialize (F e H). destruct (m e); eauto. Qed.
Lemma finish_out r m e : (exists e', finish r m e = Stop r e') \/ exists u, finish r m e = Undef u.
Proof. unfold finish. destruct (m e); eauto. Qed.
(** One round: the predicate survives, unless the round reports a syntax error or a full stack. *)
Definition reports (p : pstate) : Prop :=
  (YYINITDEPTH <= List.length (p_stk p))%nat \/
  exists x l, p_stk p = x :: l /\ s_state x <> YYFINAL /\ decide (s_state x) (match p_look p with Some (c, _) => yytranslate_of c | None => None end) = Some DError.
Lemma f_step p : P (p_env p) -> match step p with Cont p' => P (p_env p') | Stop _ e => P e \/ reports p | Undef _ => True end.
Proof.
  intro H. unfold reports, step. cbv zeta. destruct (p_stk p) as [|top stk]; [exact I|].
  destruct (Nat.leb_spec YYINITDEPTH (List.length (top :: stk))) as [L|L].
  { match goal with |- context [finish ?r ?m ?e] => destruct (finish_out r m e) as [(e' & ->)|(u & ->)]; [right; left; exact L|exact I] end. }
  destruct (Z.eqb_spec (s_state top) YYFINAL) as [|NF].
  { match goal with |- context [finish ?r ?m ?e] => destruct (@f_finish r m e ltac:(fr) H) as [(e' & -> & G)|(u & ->)]; auto end. }
  destruct (decide _ _) as [[|s'|r|]|] eqn:D; [..|exact I].
  - destruct (p_toks p) as [|t ts]; [exact I|]. pose proof (@f_read_token t _ H) as G. destruct (read_token t (p_env p)); auto.
  - destruct (p_look p) as [[c v]|]; [|exact I]. exact H.
  - destruct (get yyr2 r) as [n|]; [|exact I]. destruct (get yyr1 r) as [nt|]; [|exact I]. destruct (skipn _ _) as [|below stk']; [exact I|].
    match goal with |- context [act ?r ?a ?e] => pose proof (@f_act_all r a e (P_loc _ H)) as G; destruct (act r a e) as [v e'|e'|u] end; [|..|exact I].
    + destruct (goto_of _ _); [exact G|exact I].
    + match goal with |- context [finish ?r ?m ?e] => destruct (@f_finish r m e ltac:(fr) G) as [(e1 & -> & G2)|(u & ->)]; auto end.
  - match goal with |- context [finish ?r ?m ?e] => destruct (finish_out r m e) as [(e' & ->)|(u & ->)]; [|exact I] end. right. right. exists top, stk. auto.
Qed.
End Frame.

(** Messages of the semantic checks are the only ones set by actions. *)
Definition said (e : env) : Prop := e_msg e = VNull \/ exists a m, e_msg e = VStr a m /\ check_message m.
Lemma said_step p : said (p_env p) -> match step p with Cont p' => said (p_env p') | Stop _ e => said e \/ reports p | Undef _ => True end.
Proof. apply f_step; unfold said; cbn; auto. intros a m l c e _ C. right. eauto. Qed.
(** With a predicate that survives every message, the whole run. *)
Section FrameAny.
Variable P : env -> Prop.
Hypothesis P_alloc : forall e, P e -> P (set_heap (e_next e + 1) (e_next e :: e_live e) e).
Hypothesis P_release : forall a e, P e -> P (set_heap (e_next e) (removeN a (e_live e)) e).
Hypothesis P_stmts : forall l e, P e -> P (set_stmts l e).
Hypothesis P_params : forall l e, P e -> P (set_params l e).
Hypothesis P_plist : forall l e, P e -> P (set_plist l e).
Hypothesis P_error : forall a m l c e, P e -> P (set_error (VStr a m) l c e).
Hypothesis P_lpos : forall l e, P e -> P (set_lpos l e).
Hypothesis P_loc : forall l e, P e -> P (set_loc l e).
Lemma f_yyerror_any l c m : frame P (yyerror_at l c m).
Proof. intros e H. unfold yyerror_at, bind, snew, bind, alloc, ret. cbn. apply P_error, P_alloc, H. Qed.
Lemma f_step_any p : P (p_env p) -> match step p with Cont p' => P (p_env p') | Stop _ e => P e | Undef _ => True end.
Proof.
  intro H. assert (F := @f_step P P_alloc P_release P_stmts P_params P_plist (fun a m l c e H _ => P_error a m l c H) P_lpos P_loc p H).
  destruct (step p) as [p'|c e|u] eqn:ST; [exact F| |exact I]. destruct F as [F|F]; [exact F|].
  unfold step in ST. cbv zeta in ST. destruct (p_stk p) as [|top stk] eqn:ES; [discriminate ST|].
  assert (FIN : forall r m e0, frame P m -> P e0 -> finish r m e0 = Stop c e -> P e).
  { intros r m e0 FM H0 Q. destruct (@f_finish P r m e0 FM H0) as [(e' & Q2 & G)|(u & Q2)]; rewrite Q2 in Q; [injection Q as _ <-; exact G|discriminate Q]. }
  assert (FP : forall l, frame P (pop_all l)) by (intro l; apply f_pop_all; auto).
  assert (FE : forall l, frame P (pop_error l)) by (intro l; apply f_pop_error; auto).
  assert (FD : forall l, frame P (drop_look l)) by (intro l; apply f_drop_look; auto).
  destruct (YYINITDEPTH <=? List.length (top :: stk))%nat eqn:LD.
  { refine (FIN _ _ _ _ H ST). repeat first [apply f_yyerror_any|apply f_bind; [|intro]|apply FP|apply FE|apply FD|apply f_ret]. }
  destruct F as [F|(x & l & E1 & NF & DE)]; [rewrite ES in F; apply Nat.leb_le in F; congruence|]. rewrite ES in E1. injection E1 as <- <-. destruct (Z.eqb_spec (s_state top) YYFINAL); [contradiction|].
  rewrite DE in ST. refine (FIN _ _ _ _ H ST). repeat first [apply f_yyerror_any|apply f_bind; [|intro]|apply FP|apply FE|apply FD|apply f_ret].
Qed.
Lemma f_run_any n : forall p c e, P (p_env p) -> run n p = PRet c e -> P e.
Proof.
  induction n as [|n IH]; intros p c e H E; [discriminate E|]. cbn [run] in E. pose proof (f_step_any H) as F. destruct (step p) as [p'|c' e'|u]; [eapply IH; eassumption|injection E as _ <-; exact F|discriminate E].
Qed.
End FrameAny.
