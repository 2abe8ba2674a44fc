(** How much the parameter list of yyloc grows in a round, and what its copies cost (property C71). *)
From Verif Require Export Base BisonTables LexModel Ast Heap Actions ParseModel Own Frame Driver.
Local Open Scope nat_scope.
Set Implicit Arguments.
Unset Strict Implicit.

(** [grows k m]: the parameter list of yyloc loses nothing and gets at most [k] new elements in [m]. *)
Definition pl (e : env) : nat := List.length (e_plist e).
Definition grows (k : nat) A (m : M A) : Prop := forall e, match m e with ROk _ e' => pl e <= pl e' <= pl e + k | RErr e' => pl e <= pl e' <= pl e + k | RUB _ => True end.
Lemma g_weak j k A (m : M A) : grows j m -> j <= k -> grows k m.
Proof. intros H L e. specialize (H e). destruct (m e); lia. Qed.
Lemma g_ret k A (a : A) : grows k (ret a). Proof. intro e. cbn. lia. Qed.
Lemma g_fail k A u : grows k (@fail A u). Proof. intro e. exact I. Qed.
Lemma g_bind j k A B (m : M A) (f : A -> M B) : grows j m -> j <= k -> (forall a, grows (k - j) (f a)) -> grows k (bind m f).
Proof. intros H L K e. unfold bind. specialize (H e). destruct (m e) as [a e'|e'|u]; [|lia|exact I]. specialize (K a e'). destruct (f a e'); lia. Qed.
Lemma g_bind0 k A B (m : M A) (f : A -> M B) : grows 0 m -> (forall a, grows k (f a)) -> grows k (bind m f).
Proof. intros H K. apply (g_bind H); [lia|]. intro a. now replace (k - 0) with k by lia. Qed.
Lemma g_alloc k : grows k alloc. Proof. intro e. cbn. unfold pl. cbn [e_plist set_heap]. lia. Qed.
(** What leaves the list alone, by the frame lemmas. *)
Lemma g_frame k A (m : M A) : (forall n, frame (fun e => pl e = n) m) -> grows k m.
Proof. intros F e. specialize (F (pl e) e eq_refl). cbv beta in F. destruct (m e); lia. Qed.
Lemma g_release k a : grows k (release a). Proof. intro e. unfold release. destruct (memN _ _); [|exact I]. cbn. unfold pl. cbn [set_heap e_plist]. lia. Qed.
Lemma g_check k a : grows k (check a). Proof. intro e. unfold check. destruct (memN _ _); [|exact I]. lia. Qed.
Lemma g_YYERROR k A : grows k (@YYERROR A). Proof. intro e. cbn. lia. Qed.
Lemma g_get k A (g : env -> A) : grows k (fun e => ROk (g e) e). Proof. intro e. lia. Qed.
Lemma g_put_stmts k g : grows k (fun e => ROk tt (set_stmts (g e) e)). Proof. intro e. unfold pl. cbn. lia. Qed.
Lemma g_append a : grows 1 (fun e => ROk tt (set_plist (e_plist e ++ [a]) e)). Proof. intro e. unfold pl. cbn [e_plist set_plist]. rewrite app_length. cbn [List.length]. lia. Qed.
Lemma g_env k A (m : env -> M A) : (forall x, grows k (m x)) -> grows k (fun e => m e e). Proof. intros F e. apply F. Qed.
Global Hint Resolve g_ret g_fail g_alloc g_release g_check g_YYERROR g_get g_put_stmts g_append : grows.
Ltac budget := solve [auto with grows].
Ltac ta := repeat first
  [ budget
  | apply g_bind0; [budget|intro]
  | eapply (@g_bind 1); [budget|lia|intro; cbn [Nat.sub]]
  | eapply (@g_bind 2); [budget|lia|intro; cbn [Nat.sub]]
  | match goal with |- grows _ (match ?x with _ => _ end) => destruct x end
  | match goal with |- grows _ (if ?x then _ else _) => destruct x end ].
Lemma g_deref k v : grows k (deref v). Proof. unfold deref. ta. Qed.
Lemma g_read_field k f fs : grows k (read_field f fs). Proof. unfold read_field. ta. Qed.
Global Hint Resolve g_deref g_read_field : grows.
Lemma g_getf k f v : grows k (getf f v). Proof. unfold getf. ta. Qed.
Lemma g_put k f x v : grows k (put f x v). Proof. unfold put. ta. Qed.
Global Hint Resolve g_getf g_put : grows.
Lemma g_puts k l : forall v, grows k (puts l v). Proof. induction l as [|[f x] l IH]; intro v; cbn [puts]; ta. Qed.
Lemma g_new k c fs : grows k (new c fs). Proof. unfold new. ta. Qed.
Lemma g_vnew k : grows k vnew. Proof. unfold vnew. ta. Qed.
Lemma g_snew k s : grows k (snew s). Proof. unfold snew. ta. Qed.
Lemma g_vpush k x v : grows k (vpush x v). Proof. unfold vpush. ta. Qed.
Lemma g_velems k v : grows k (velems v). Proof. unfold velems. ta. Qed.
Global Hint Resolve g_puts g_new g_vnew g_snew g_vpush g_velems : grows.
Lemma g_vback_put k f x v : grows k (vback_put f x v). Proof. unfold vback_put. ta. Qed.
Lemma g_cstr k v : grows k (cstr v). Proof. unfold cstr. ta. Qed.
Lemma g_is_null k v : grows k (Heap.is_null v). Proof. unfold Heap.is_null. ta. Qed.
Lemma g_as_int k v : grows k (as_int v). Proof. unfold as_int. ta. Qed.
Lemma g_as_enum k v : grows k (as_enum v). Proof. unfold as_enum. ta. Qed.
Lemma g_free k v : grows k (free_ v). Proof. unfold free_. ta. Qed.
Global Hint Resolve g_vback_put g_cstr g_is_null g_as_int g_as_enum g_free : grows.
Lemma g_free_all k l : grows k (free_all l). Proof. induction l; cbn [free_all]; ta. Qed.
Global Hint Resolve g_free_all : grows.
Lemma g_del_block k v : grows k (del_block v). Proof. unfold del_block. ta. Qed.
Lemma g_free_vec k v : grows k (free_vec v). Proof. unfold free_vec. ta. Qed.
Lemma g_del k v : grows k (del v). Proof. apply g_frame. intro n. apply f_del. intros a e H. exact H. Qed.
Global Hint Resolve g_del_block g_free_vec g_del : grows.
Lemma g_del_all k l : grows k (del_all l). Proof. induction l; cbn [del_all]; ta. Qed.
Lemma g_yyerror_at k a b m : grows k (yyerror_at a b m).
Proof. intro e. unfold yyerror_at, bind, snew, bind, alloc, ret, pl. cbn. lia. Qed.
Lemma g_yyerror k m : grows k (yyerror m). Proof. intro e. apply g_yyerror_at. Qed.
Global Hint Resolve g_del_all g_yyerror_at g_yyerror : grows.
Lemma g_set_insert k x v : grows k (set_insert x v). Proof. unfold set_insert. ta. Qed.
Lemma g_distribute k l : forall a b, grows k (distribute l a b). Proof. induction l as [|x l IH]; intros a b; cbn [distribute]; ta. Qed.
Lemma g_trySet k v : grows k (trySetNullableExplicit v). Proof. unfold trySetNullableExplicit. cbv zeta. ta. Qed.
Global Hint Resolve g_set_insert g_distribute g_trySet : grows.
Lemma g_setColumns k a v : grows k (setColumnDefsAndConstraints a v). Proof. unfold setColumnDefsAndConstraints. ta. Qed.
Lemma g_accept_csv k a v : grows k (accept_csv_option a v). Proof. unfold accept_csv_option. cbv zeta. ta. Qed.
Global Hint Resolve g_setColumns g_accept_csv : grows.
Lemma g_if0 k A (b : bool) (m n : M A) : grows k m -> grows k n -> grows k (if b then m else n). Proof. destruct b; auto. Qed.
Lemma g_move k a v : grows k (move_options a v).
Proof.
  unfold move_options. apply g_bind0; [budget|intro]. apply g_bind0; [budget|intro]. apply g_bind0; [ta|intro]. apply g_bind0; [budget|intro]. apply g_bind0; [budget|intro]. apply g_bind0; [ta|intro]. ta.
Qed.
Lemma g_vback_puts k l : forall v, grows k (vback_puts l v). Proof. induction l as [|[f x] l IH]; intro v; cbn [vback_puts]; ta. Qed.
Global Hint Resolve g_move g_vback_puts : grows.
Lemma g_new_if k (b : bool) v : grows k (if b then vnew else ret v). Proof. destruct b; ta. Qed.
Lemma g_new_if2 k (b : bool) c fs v : grows k (if b then new c fs else ret v). Proof. destruct b; ta. Qed.
Lemma g_if_zero (b : bool) A (a : A) (m : M A) : grows 0 m -> grows 0 (if b then ret a else m). Proof. destruct b; ta. Qed.
Global Hint Resolve g_new_if g_new_if2 g_if_zero : grows.
Lemma g_add_set k o l v : grows k (add_set_operation o l v). Proof. unfold add_set_operation. ta. Qed.
Lemma g_addParameter k a z : grows k (addParameter a z).
Proof. intros e. unfold addParameter, pl. destruct (e_params e); [cbn; lia|]. destruct (forallb _ _); [cbn; lia|exact I]. Qed.
Global Hint Resolve g_add_set g_addParameter : grows.
Lemma g_number k l : forall z, grows k (number_params l z).
Proof. induction l as [|a l IH]; intro z; cbn [number_params]; [ta|]. apply g_bind0; [budget|intro]. apply g_bind0; [apply g_put_stmts|intro]. ta. Qed.
Lemma g_take k v : grows k (take_string_length v).
Proof. apply g_frame. intros n e H. unfold take_string_length. cbv zeta. apply f_put. exact H. Qed.
Global Hint Resolve g_number g_take : grows.
Ltac un := unfold mkExpr, makeOpUnary, makeOpBinary, makeBetween, makeCaseList, makeCaseListElement, caseListAppend, makeCase, makeLiteralInt, makeLiteralFloat, makeLiteralString, makeLiteralBool,
  makeNullLiteral, makeDateLiteral, makeIntervalLiteral, makeColumnRef, makeColumnRef2, makeStar, makeStar1, makeFunctionRef, makeFunctionRef2, makeArray, makeArrayIndex, makeParameter, makeSelect,
  makeExists, makeInList, makeInSelect, makeExtract, makeCast, newColumnConstraints, add_constraint, add_reference, vec1, table_ref_of, mkExpr.
Lemma g_bind_r j k A B (m : M A) (f : A -> M B) : (forall a, grows (k - j) (f a)) -> j <= k -> grows j m -> grows k (bind m f).
Proof. intros. eapply g_bind; eassumption. Qed.
(** No action adds more than one element. *)
Lemma g_act r args : grows 1 (act r args).
Proof.
  unfold act. cbv zeta. un.
  repeat match goal with
  | |- grows _ (match ?x with N0 => _ | Npos _ => _ end) => destruct x
  | |- grows _ (match ?x with xI _ => _ | xO _ => _ | xH => _ end) => destruct x
  end.
  all: repeat first
    [ budget
    | apply g_bind0; [first [budget | solve [ta]]|intro]
    | eapply (@g_bind 1); [first [budget | solve [ta]]|lia|intro; cbn [Nat.sub]]
    | eapply (@g_bind 2); [first [budget | solve [ta]]|lia|intro; cbn [Nat.sub]]
    | eapply (@g_bind 3); [first [budget | solve [ta]]|lia|intro; cbn [Nat.sub]]
    | match goal with |- grows _ (match ?x with _ => _ end) => destruct x end
    | match goal with |- grows _ (fun e => number_params (@?g e) ?z e) => apply (g_env (m := fun x => number_params (g x) z)); intro end ].
  change (fun e : env => number_params (e_plist e) 0 e) with (fun e : env => (fun x => number_params (e_plist x) 0) e e). apply (@g_bind0 1); [apply (@g_env 0 _ (fun x => number_params (e_plist x) 0)); intro; budget|intro]. ta.
Qed.

(** ** The driver *)
Lemma g_token_value k v : grows k (token_value v). Proof. unfold token_value. destruct v; ta. Qed.
Lemma g_read_token k t : grows k (read_token t).
Proof. unfold read_token. apply g_bind0; [intro e; cbn; unfold pl; cbn; lia|intro]. apply g_bind0; [apply g_token_value|intro]. apply g_ret. Qed.
Lemma g_yydestruct k X v : grows k (yydestruct X v). Proof. unfold yydestruct. ta. Qed.
Global Hint Resolve g_yydestruct : grows.
Lemma g_destruct_entry k x : grows k (destruct_entry x). Proof. unfold destruct_entry. ta. Qed.
Global Hint Resolve g_destruct_entry : grows.
Lemma g_pop_all k l : grows k (pop_all l). Proof. induction l as [|x l IH]; cbn [pop_all]; ta. Qed.
Lemma g_pop_error k l : grows k (pop_error l). Proof. induction l as [|x l IH]; cbn [pop_error]; ta. Qed.
Lemma g_drop_look k l : grows k (drop_look l). Proof. unfold drop_look. ta. Qed.
Global Hint Resolve g_pop_all g_pop_error g_drop_look : grows.
Lemma g_finish r m e c e' : grows 0 m -> finish r m e = Stop c e' -> pl e' = pl e.
Proof. intros T. unfold finish. specialize (T e). destruct (m e) as [a e1|e1|u]; intro E; try discriminate E. injection E as _ <-. lia. Qed.
Lemma finish_cont r m e p' : finish r m e = Cont p' -> False.
Proof. unfold finish. destruct (m e); discriminate. Qed.

(** The round that starts at [p] is a reduction: it ends with the copy of line 5652, unless the action fails. *)
Definition reduces (p : pstate) : bool :=
  match p_stk p with
  | [] => false
  | top :: _ =>
    if (YYINITDEPTH <=? List.length (p_stk p))%nat then false else if (s_state top =? YYFINAL)%Z then false
    else match decide (s_state top) (match p_look p with Some (c, _) => yytranslate_of c | None => None end) with Some (DReduce _) => true | _ => false end
  end.
(** Elements copied from one parameter list to another in a run of yyparse.
    /repo/src/parser/bison_parser.cpp:5652: *++yylsp = yyloc, at the end of every reduction, copies the whole list ([YYLTYPE] contains a std::vector, parser_typedef.h:14-28).
    /repo/src/parser/bison_parser.cpp:5752, 5786: after an error, yyerror_range[1] = *yylsp for every element of the stack; the lists there are not longer than that of yyloc, and that
    is what is counted here (a parse that succeeds has no such copies).  A shift copies yylloc (3122), whose list is always empty. *)
Fixpoint copies (fuel : nat) (p : pstate) : nat :=
  match fuel with
  | O => 0
  | S f => match step p with
    | Cont p' => (if reduces p then pl (p_env p') else 0) + copies f p'
    | Stop r e => if (r =? 1)%Z then List.length (p_stk p) * pl e else 0
    | Undef _ => 0
    end
  end.
Lemma step_grows p : match step p with
  | Cont p' => pl (p_env p) <= pl (p_env p') <= pl (p_env p) + (if reduces p then 1 else 0)
  | Stop r e => (r = 1%Z -> List.length (p_stk p) < YYINITDEPTH) /\ pl (p_env p) <= pl e <= pl (p_env p) + (if (r =? 1)%Z then 1 else 0)
  | Undef _ => True end.
Proof.
  assert (F : forall r m e (b : nat), grows 0 m -> (r = 1%Z -> List.length (p_stk p) < YYINITDEPTH) -> pl (p_env p) <= pl e <= pl (p_env p) + (if (r =? 1)%Z then 1 else 0) -> match finish r m e with
    | Cont p' => pl (p_env p) <= pl (p_env p') <= pl (p_env p) + b
    | Stop r e' => (r = 1%Z -> List.length (p_stk p) < YYINITDEPTH) /\ pl (p_env p) <= pl e' <= pl (p_env p) + (if (r =? 1)%Z then 1 else 0)
    | Undef _ => True end).
  { intros r m e b T D L. destruct (finish r m e) as [p'|c e'|u] eqn:E; [now apply finish_cont in E| |exact I]. pose proof (g_finish T E). assert (c = r) as -> by (clear - E; unfold finish in E; destruct (m e); congruence). split; [exact D|lia]. }
  unfold step, reduces. cbv zeta. destruct (p_stk p) as [|top stk] eqn:ES; [exact I|]. rewrite <- ES in *. destruct (_ <=? _) eqn:LE.
  { apply F; [ta|discriminate|cbn; lia]. }
  apply Nat.leb_gt in LE.
  destruct (_ =? _)%Z; [apply F; [ta|discriminate|cbn; lia]|]. destruct (decide _ _) as [[|s'|r|]|]; [..|exact I].
  - destruct (p_toks p) as [|t ts]; [exact I|]. pose proof (@g_read_token 0 t (p_env p)) as T. destruct (read_token t (p_env p)); [cbn [p_env]; lia|exact I..].
  - destruct (p_look p) as [[c v]|]; [cbn [p_env]; lia|exact I].
  - destruct (get yyr2 r) as [n|]; [|exact I]. destruct (get yyr1 r) as [nt|]; [|exact I]. destruct (skipn _ _) as [|below stk']; [exact I|].
    match goal with |- context [act ?r ?a ?e] => pose proof (@g_act r a e) as T; change (pl e) with (pl (p_env p)) in T; destruct (act r a e) as [v e'|e'|u] end; [|..|exact I].
    + destruct (goto_of _ _); [exact T|exact I].
    + apply F; [ta|auto|cbn; lia].
  - apply F; [ta|auto|cbn; lia].
Qed.
(** Every element is copied at least once, and again by the reductions that add later elements. *)
Lemma copies_least fuel : forall p c e, run fuel p = PRet c e -> c <> 1%Z -> pl e * (pl e + 1) <= 2 * copies fuel p + pl (p_env p) * (pl (p_env p) + 1).
Proof.
  induction fuel as [|f IH]; intros p c e E N; [discriminate E|]. cbn [run copies] in *. pose proof (step_grows p) as G. destruct (step p) as [q|c' e'|u]; [|injection E as -> <-|discriminate E].
  - specialize (IH q c e E N). destruct (reduces p); nia.
  - destruct (Z.eqb_spec c 1); nia.
Qed.
Lemma run_plist fuel : forall p c e, run fuel p = PRet c e -> pl (p_env p) <= pl e <= pl (p_env p) + rounds fuel p.
Proof.
  induction fuel as [|f IH]; intros p c e E; [discriminate E|]. cbn [run rounds] in *. pose proof (step_grows p) as G. destruct (step p) as [q|c' e'|u]; [|injection E as -> <-|discriminate E].
  - specialize (IH q c e E). destruct (reduces p); lia.
  - destruct (c =? 1)%Z; lia.
Qed.
Lemma copies_most fuel : forall p c e, run fuel p = PRet c e -> copies fuel p <= (rounds fuel p + (if (c =? 1)%Z then YYINITDEPTH else 0)) * pl e.
Proof.
  induction fuel as [|f IH]; intros p c e E; [discriminate E|]. cbn [run rounds copies] in *. pose proof (step_grows p) as G. destruct (step p) as [q|c' e'|u]; [|injection E as -> <-|discriminate E].
  - pose proof (run_plist E) as R. specialize (IH q c e E). destruct (reduces p); nia.
  - destruct (Z.eqb_spec c 1) as [->|NE]; [|lia]. destruct G as [G _]. specialize (G eq_refl). nia.
Qed.
