(** How many blocks of memory a parse allocates: a bound for every action and every round of the parser loop.  No code of /repo. *)
From Verif Require Export Base BisonTables LexModel Ast Heap Actions ParseModel Own Frame Driver.
Local Open Scope nat_scope.
Set Implicit Arguments.
Unset Strict Implicit.

(** [takes k m]: [m] allocates at most [k] blocks, also if it ends with YYERROR. *)
Definition next (e : env) : nat := N.to_nat (e_next e).
Definition takes (k : nat) A (m : M A) : Prop := forall e, match m e with ROk _ e' => next e' <= next e + k | RErr e' => next e' <= next e + k | RUB _ => True end.
Lemma t_weak j k A (m : M A) : takes j m -> j <= k -> takes k m.
Proof. intros H L e. specialize (H e). destruct (m e); lia. Qed.
Lemma t_ret k A (a : A) : takes k (ret a). Proof. intro e. cbn. lia. Qed.
Lemma t_fail k A u : takes k (@fail A u). Proof. intro e. exact I. Qed.
Lemma t_bind j k A B (m : M A) (f : A -> M B) : takes j m -> j <= k -> (forall a, takes (k - j) (f a)) -> takes k (bind m f).
Proof. intros H L K e. unfold bind. specialize (H e). destruct (m e) as [a e'|e'|u]; [|lia|exact I]. specialize (K a e'). destruct (f a e'); lia. Qed.
Lemma t_bind0 k A B (m : M A) (f : A -> M B) : takes 0 m -> (forall a, takes k (f a)) -> takes k (bind m f).
Proof. intros H K. apply (t_bind H); [lia|]. intro a. now replace (k - 0) with k by lia. Qed.
Lemma t_alloc : takes 1 alloc. Proof. intro e. cbn. unfold next. cbn [e_next set_heap]. lia. Qed.
(** What leaves the counter alone, by the frame lemmas. *)
Lemma t_frame k A (m : M A) : (forall n, frame (fun e => next e <= n) m) -> takes k m.
Proof. intros F e. specialize (F (next e) e (le_n _)). cbv beta in F. destruct (m e); lia. Qed.
Lemma t_release k a : takes k (release a). Proof. intro e. unfold release. destruct (memN _ _); [|exact I]. cbn. unfold next. cbn [set_heap e_next]. lia. Qed.
Lemma t_check k a : takes k (check a). Proof. intro e. unfold check. destruct (memN _ _); [|exact I]. lia. Qed.
Lemma t_YYERROR k A : takes k (@YYERROR A). Proof. intro e. cbn. lia. Qed.
Lemma t_get k A (g : env -> A) : takes k (fun e => ROk (g e) e). Proof. intro e. lia. Qed.
Lemma t_put_stmts k g : takes k (fun e => ROk tt (set_stmts (g e) e)). Proof. intro e. unfold next. cbn. lia. Qed.
Lemma t_put_plist k g : takes k (fun e => ROk tt (set_plist (g e) e)). Proof. intro e. unfold next. cbn. lia. Qed.
Lemma t_env k A (m : env -> M A) : (forall x, takes k (m x)) -> takes k (fun e => m e e). Proof. intros F e. apply F. Qed.
Global Hint Resolve t_ret t_fail t_alloc t_release t_check t_YYERROR t_get t_put_stmts t_put_plist : takes.
Ltac budget := solve [auto with takes].
Ltac ta := repeat first
  [ budget
  | apply t_bind0; [budget|intro]
  | eapply (@t_bind 1); [budget|lia|intro; cbn [Nat.sub]]
  | eapply (@t_bind 2); [budget|lia|intro; cbn [Nat.sub]]
  | match goal with |- takes _ (match ?x with _ => _ end) => destruct x end
  | match goal with |- takes _ (if ?x then _ else _) => destruct x end ].
Lemma t_deref k v : takes k (deref v). Proof. unfold deref. ta. Qed.
Lemma t_read_field k f fs : takes k (read_field f fs). Proof. unfold read_field. ta. Qed.
Global Hint Resolve t_deref t_read_field : takes.
Lemma t_getf k f v : takes k (getf f v). Proof. unfold getf. ta. Qed.
Lemma t_put k f x v : takes k (put f x v). Proof. unfold put. ta. Qed.
Global Hint Resolve t_getf t_put : takes.
Lemma t_puts k l : forall v, takes k (puts l v). Proof. induction l as [|[f x] l IH]; intro v; cbn [puts]; ta. Qed.
Lemma t_new c fs : takes 1 (new c fs). Proof. unfold new. ta. Qed.
Lemma t_vnew : takes 1 vnew. Proof. unfold vnew. ta. Qed.
Lemma t_snew s : takes 1 (snew s). Proof. unfold snew. ta. Qed.
Lemma t_vpush k x v : takes k (vpush x v). Proof. unfold vpush. ta. Qed.
Lemma t_velems k v : takes k (velems v). Proof. unfold velems. ta. Qed.
Global Hint Resolve t_puts t_new t_vnew t_snew t_vpush t_velems : takes.
Lemma t_vback_put k f x v : takes k (vback_put f x v). Proof. unfold vback_put. ta. Qed.
Lemma t_cstr k v : takes k (cstr v). Proof. unfold cstr. ta. Qed.
Lemma t_is_null k v : takes k (Heap.is_null v). Proof. unfold Heap.is_null. ta. Qed.
Lemma t_as_int k v : takes k (as_int v). Proof. unfold as_int. ta. Qed.
Lemma t_as_enum k v : takes k (as_enum v). Proof. unfold as_enum. ta. Qed.
Lemma t_free k v : takes k (free_ v). Proof. unfold free_. ta. Qed.
Global Hint Resolve t_vback_put t_cstr t_is_null t_as_int t_as_enum t_free : takes.
Lemma t_free_all k l : takes k (free_all l). Proof. induction l; cbn [free_all]; ta. Qed.
Global Hint Resolve t_free_all : takes.
Lemma t_del_block k v : takes k (del_block v). Proof. unfold del_block. ta. Qed.
Lemma t_free_vec k v : takes k (free_vec v). Proof. unfold free_vec. ta. Qed.
Lemma t_del k v : takes k (del v). Proof. apply t_frame. intro n. apply f_del. intros a e H. exact H. Qed.
Global Hint Resolve t_del_block t_free_vec t_del : takes.
Lemma t_del_all k l : takes k (del_all l). Proof. induction l; cbn [del_all]; ta. Qed.
Lemma t_yyerror_at a b m : takes 1 (yyerror_at a b m).
Proof. intro e. unfold yyerror_at, bind, snew, bind, alloc, ret, next. cbn. lia. Qed.
Lemma t_yyerror m : takes 1 (yyerror m). Proof. intro e. apply t_yyerror_at. Qed.
Global Hint Resolve t_del_all t_yyerror_at t_yyerror : takes.
Lemma t_set_insert k x v : takes k (set_insert x v). Proof. unfold set_insert. ta. Qed.
Lemma t_distribute k l : forall a b, takes k (distribute l a b). Proof. induction l as [|x l IH]; intros a b; cbn [distribute]; ta. Qed.
Lemma t_trySet k v : takes k (trySetNullableExplicit v). Proof. unfold trySetNullableExplicit. cbv zeta. ta. Qed.
Global Hint Resolve t_set_insert t_distribute t_trySet : takes.
Lemma t_setColumns a v : takes 2 (setColumnDefsAndConstraints a v). Proof. unfold setColumnDefsAndConstraints. ta. Qed.
Lemma t_accept_csv k a v : takes k (accept_csv_option a v). Proof. unfold accept_csv_option. cbv zeta. ta. Qed.
Global Hint Resolve t_setColumns t_accept_csv : takes.
Lemma t_if0 k A (b : bool) (m n : M A) : takes k m -> takes k n -> takes k (if b then m else n). Proof. destruct b; auto. Qed.
Lemma t_move k a v : takes k (move_options a v).
Proof.
  unfold move_options. apply t_bind0; [budget|intro]. apply t_bind0; [budget|intro]. apply t_bind0; [ta|intro]. apply t_bind0; [budget|intro]. apply t_bind0; [budget|intro]. apply t_bind0; [ta|intro]. ta.
Qed.
Lemma t_vback_puts k l : forall v, takes k (vback_puts l v). Proof. induction l as [|[f x] l IH]; intro v; cbn [vback_puts]; ta. Qed.
Global Hint Resolve t_move t_vback_puts : takes.
Lemma t_new_if (b : bool) v : takes 1 (if b then vnew else ret v). Proof. destruct b; ta. Qed.
Lemma t_new_if2 (b : bool) c fs v : takes 1 (if b then new c fs else ret v). Proof. destruct b; ta. Qed.
Lemma t_if_zero (b : bool) A (a : A) (m : M A) : takes 0 m -> takes 0 (if b then ret a else m). Proof. destruct b; ta. Qed.
Global Hint Resolve t_new_if t_new_if2 t_if_zero : takes.
Lemma t_add_set o l v : takes 1 (add_set_operation o l v). Proof. unfold add_set_operation. ta. Qed.
Lemma t_addParameter k a z : takes k (addParameter a z).
Proof. intros e. unfold addParameter, next. destruct (e_params e); [cbn; lia|]. destruct (forallb _ _); [cbn; lia|exact I]. Qed.
Global Hint Resolve t_add_set t_addParameter : takes.
Lemma t_number k l : forall z, takes k (number_params l z).
Proof. induction l as [|a l IH]; intro z; cbn [number_params]; [ta|]. apply t_bind0; [budget|intro]. apply t_bind0; [apply t_put_stmts|intro]. ta. Qed.
Lemma t_take k v : takes k (take_string_length v).
Proof. apply t_frame. intros n e H. unfold take_string_length. cbv zeta. apply f_put. exact H. Qed.
Global Hint Resolve t_number t_take : takes.
Ltac un := unfold mkExpr, makeOpUnary, makeOpBinary, makeBetween, makeCaseList, makeCaseListElement, caseListAppend, makeCase, makeLiteralInt, makeLiteralFloat, makeLiteralString, makeLiteralBool,
  makeNullLiteral, makeDateLiteral, makeIntervalLiteral, makeColumnRef, makeColumnRef2, makeStar, makeStar1, makeFunctionRef, makeFunctionRef2, makeArray, makeArrayIndex, makeParameter, makeSelect,
  makeExists, makeInList, makeInSelect, makeExtract, makeCast, newColumnConstraints, add_constraint, add_reference, vec1, table_ref_of, mkExpr.
Lemma t_bind_r j k A B (m : M A) (f : A -> M B) : (forall a, takes (k - j) (f a)) -> j <= k -> takes j m -> takes k (bind m f).
Proof. intros. eapply t_bind; eassumption. Qed.
(** No action allocates more than three blocks. *)
Lemma t_act r args : takes 3 (act r args).
Proof.
  unfold act. cbv zeta. un.
  repeat match goal with
  | |- takes _ (match ?x with N0 => _ | Npos _ => _ end) => destruct x
  | |- takes _ (match ?x with xI _ => _ | xO _ => _ | xH => _ end) => destruct x
  end.
  all: repeat first
    [ budget
    | apply t_bind0; [first [budget | solve [ta]]|intro]
    | eapply (@t_bind 1); [first [budget | solve [ta]]|lia|intro; cbn [Nat.sub]]
    | eapply (@t_bind 2); [first [budget | solve [ta]]|lia|intro; cbn [Nat.sub]]
    | eapply (@t_bind 3); [first [budget | solve [ta]]|lia|intro; cbn [Nat.sub]]
    | match goal with |- takes _ (match ?x with _ => _ end) => destruct x end
    | match goal with |- takes _ (fun e => number_params (@?g e) ?z e) => apply (t_env (m := fun x => number_params (g x) z)); intro end ].
  change (fun e : env => number_params (e_plist e) 0 e) with (fun e : env => (fun x => number_params (e_plist x) 0) e e). apply (@t_bind0 3); [apply (@t_env 0 _ (fun x => number_params (e_plist x) 0)); intro; budget|intro]. ta.
Qed.

(** ** The driver *)
Lemma t_token_value v : takes 1 (token_value v). Proof. unfold token_value. destruct v; ta. Qed.
Lemma t_read_token t : takes 1 (read_token t).
Proof.
  unfold read_token. apply t_bind0; [intro e; cbn; unfold next; cbn; lia|intro]. eapply (@t_bind 1); [apply t_token_value|lia|intro; ta].
Qed.
Lemma t_yydestruct k X v : takes k (yydestruct X v). Proof. unfold yydestruct. ta. Qed.
Global Hint Resolve t_yydestruct : takes.
Lemma t_destruct_entry k x : takes k (destruct_entry x). Proof. unfold destruct_entry. ta. Qed.
Global Hint Resolve t_destruct_entry : takes.
Lemma t_pop_all k l : takes k (pop_all l). Proof. induction l as [|x l IH]; cbn [pop_all]; ta. Qed.
Lemma t_pop_error k l : takes k (pop_error l). Proof. induction l as [|x l IH]; cbn [pop_error]; ta. Qed.
Lemma t_drop_look k l : takes k (drop_look l). Proof. unfold drop_look. ta. Qed.
Global Hint Resolve t_pop_all t_pop_error t_drop_look : takes.
Lemma t_finish k r m e c e' : takes k m -> finish r m e = Stop c e' -> next e' <= next e + k.
Proof. intros T. unfold finish. specialize (T e). destruct (m e) as [a e1|e1|u]; intro E; try discriminate E. injection E as _ <-. exact T. Qed.
Lemma finish_cont r m e p' : finish r m e = Cont p' -> False.
Proof. unfold finish. destruct (m e); discriminate. Qed.
Lemma step_takes p : match step p with Cont p' => next (p_env p') <= next (p_env p) + 3 | Stop _ e => next e <= next (p_env p) + 3 | Undef _ => True end.
Proof.
  assert (F : forall r m e k, takes k m -> next e + k <= next (p_env p) + 3 -> match finish r m e with Cont p' => next (p_env p') <= next (p_env p) + 3 | Stop _ e' => next e' <= next (p_env p) + 3 | Undef _ => True end).
  { intros r m e k T L. destruct (finish r m e) as [p'|c e'|u] eqn:E; [now apply finish_cont in E| |exact I]. pose proof (t_finish T E). lia. }
  unfold step. cbv zeta. destruct (p_stk p) as [|top stk]; [exact I|]. destruct (_ <=? _).
  { apply F with (k := 1); [|lia]. eapply (@t_bind 1); [budget|lia|intro; ta]. }
  destruct (_ =? _)%Z; [apply F with (k := 0); [ta|lia]|]. destruct (decide _ _) as [[|s'|r|]|]; [..|exact I].
  - destruct (p_toks p) as [|t ts]; [exact I|]. pose proof (t_read_token t (p_env p)) as T. destruct (read_token t (p_env p)); [cbn [p_env]; lia|exact I..].
  - destruct (p_look p) as [[c v]|]; [cbn [p_env]; lia|exact I].
  - destruct (get yyr2 r) as [n|]; [|exact I]. destruct (get yyr1 r) as [nt|]; [|exact I]. destruct (skipn _ _) as [|below stk']; [exact I|].
    match goal with |- context [act ?r ?a ?e] => pose proof (@t_act r a e) as T; change (next e) with (next (p_env p)) in T; destruct (act r a e) as [v e'|e'|u] end; [|..|exact I].
    + destruct (goto_of _ _); [exact T|exact I].
    + apply F with (k := 0); [ta|lia].
  - apply F with (k := 1); [|lia]. eapply (@t_bind 1); [budget|lia|intro; ta].
Qed.
(** The state after [k] rounds, if the parse is still running. *)
Fixpoint later (k : nat) (p : pstate) : option pstate :=
  match k with O => Some p | S k' => match step p with Cont p' => later k' p' | _ => None end end.
Lemma later_takes k : forall p p', later k p = Some p' -> next (p_env p') <= next (p_env p) + 3 * k.
Proof.
  induction k as [|k IH]; intros p p' E; cbn [later] in E; [injection E as <-; lia|]. pose proof (step_takes p) as T. destruct (step p) as [q|c e|u]; try discriminate E. apply IH in E. lia.
Qed.
Lemma later_rounds k : forall fuel p p', later k p = Some p' -> k < fuel -> k < rounds fuel p.
Proof.
  induction k as [|k IH]; intros [|f] p p' E L; try lia; cbn [later rounds] in *; [destruct (step p); lia|]. destruct (step p) as [q|c e|u]; try discriminate E. specialize (IH f q p' E). lia.
Qed.
Lemma run_takes fuel : forall p c e, run fuel p = PRet c e -> next e <= next (p_env p) + 3 * rounds fuel p.
Proof.
  induction fuel as [|f IH]; intros p c e E; [discriminate E|]. cbn [run rounds] in *. pose proof (step_takes p) as T. destruct (step p) as [q|c' e'|u]; [apply IH in E; lia|injection E as _ <-; lia|discriminate E].
Qed.
(** Live blocks: no more than before, plus the allocated ones. *)
Definition held (e : env) : nat := List.length (e_live e).
Lemma removeN_shorter a l : List.length (removeN a l) <= List.length l.
Proof. induction l as [|b l IH]; cbn [removeN List.length]; [lia|]. destruct (N.eqb a b); cbn [List.length]; lia. Qed.
Definition covered (h n : nat) (e : env) : Prop := held e + n <= h + next e.
Lemma covered_step h n p : covered h n (p_env p) -> match step p with Cont p' => covered h n (p_env p') | Stop _ e => covered h n e | Undef _ => True end.
Proof.
  apply f_step_any; unfold covered, held, next; cbn [e_live e_next set_heap set_stmts set_params set_plist set_error set_lpos set_loc List.length]; intros; try lia.
  pose proof (removeN_shorter a (e_live e)). lia.
Qed.
Lemma covered_later h n k : forall p p', covered h n (p_env p) -> later k p = Some p' -> covered h n (p_env p').
Proof.
  induction k as [|k IH]; intros p p' C E; cbn [later] in E; [injection E as <-; exact C|]. pose proof (covered_step C) as S. destruct (step p) as [q|c e|u]; try discriminate E. eapply IH; eassumption.
Qed.
Lemma covered_run h n fuel : forall p c e, covered h n (p_env p) -> run fuel p = PRet c e -> covered h n e.
Proof.
  induction fuel as [|f IH]; intros p c e C E; [discriminate E|]. cbn [run] in E. pose proof (covered_step C) as S. destruct (step p) as [q|c' e'|u]; [eapply IH; eassumption|injection E as _ <-; exact S|discriminate E].
Qed.
