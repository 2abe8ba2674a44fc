(** Property C69: composing a syntax error message never leaves the message buffer, the tables or a string, and the whole message is written. *)
From Verif Require Import Script PropParse PropResult PropError Prefix Cause PropCause Verbose.
From Verif Require Import Base BisonTables TokenCodes LexModel ParseModel TableCheck Grammar Abs InvRun.
Open Scope nat_scope.
Set Implicit Arguments.
Unset Strict Implicit.

(** ** The buffer *)
Lemma put_end pre x post c : write_at (pre ++ x :: post) (List.length pre) c = Some (pre ++ c :: post).
Proof.
  unfold write_at. rewrite app_length. cbn [List.length]. destruct (Nat.ltb_spec (List.length pre) (List.length pre + S (List.length post))); [|lia].
  f_equal. rewrite firstn_app, Nat.sub_diag, firstn_O, firstn_all, app_nil_r. f_equal. f_equal.
  rewrite skipn_app. replace (S (List.length pre) - List.length pre) with 1 by lia. rewrite skipn_all2 by lia. reflexivity.
Qed.
Lemma stpcpy_end s : forall pre post, List.length s < List.length post ->
  exists rest, yystpcpy (pre ++ post) (List.length pre) s = Some (List.length pre + List.length s, pre ++ s ++ NUL :: rest) /\ List.length s + S (List.length rest) = List.length post.
Proof.
  induction s as [|c s IH]; intros pre post L; cbn [List.length] in L; (destruct post as [|x post]; cbn [List.length] in L; [lia|]); cbn [yystpcpy]; rewrite put_end; cbn [obind].
  - exists post. rewrite Nat.add_0_r. cbn. auto.
  - destruct (IH (pre ++ [c]) post) as (rest & E & LE); [lia|]. exists rest. rewrite app_length in E. cbn [List.length] in E |- *. rewrite <- !app_assoc in E. cbn [app] in E. rewrite Nat.add_1_r in E. rewrite E.
    split; [f_equal; f_equal; lia|lia].
Qed.

(** The names printed: no NUL and no quote in front. *)
Definition plain_name (s : bytes) : Prop := (forall c, In c s -> byte_eqb c NUL = false) /\ match s with c :: _ => byte_eqb c """"%char = false | [] => False end.
Lemma tnamerr_end s pre post : plain_name s -> List.length s < List.length post ->
  exists rest, yytnamerr (Some (List.length pre)) (pre ++ post) s = Some (List.length s, pre ++ s ++ NUL :: rest) /\ List.length s + S (List.length rest) = List.length post.
Proof.
  intros [_ Q] L. destruct s as [|c s]; [contradiction|]. unfold yytnamerr. rewrite Q. destruct (stpcpy_end pre L) as (rest & E & LE). rewrite E. cbn [obind]. exists rest. split; [f_equal; f_equal; lia|exact LE].
Qed.
Lemma tnamerr_size s b : plain_name s -> yytnamerr None b s = Some (List.length s, b).
Proof. intros [_ Q]. destruct s as [|c s]; [contradiction|]. unfold yytnamerr. now rewrite Q. Qed.

(** ** The format *)
Fixpoint expand (f : bytes) (args : list bytes) : bytes :=
  match f with
  | [] => []
  | c :: f' =>
    match f', args with
    | c' :: f'', a :: args' => if byte_eqb c "%"%char && byte_eqb c' "s"%char then a ++ expand f'' args' else c :: expand f' args
    | _, _ => c :: expand f' args
    end
  end.
Lemma fill_end : forall n f args pre post, List.length f <= n -> Forall plain_name args -> List.length (expand f args) < List.length post ->
  exists rest, fill f args (List.length pre) (pre ++ post) = Some (pre ++ expand f args ++ NUL :: rest) /\ List.length (expand f args) + S (List.length rest) = List.length post.
Proof.
  induction n as [|n IH]; intros f args pre post LF PA L.
  - destruct f; [|cbn in LF; lia]. cbn in L |- *. destruct post as [|x post]; [cbn in L; lia|]. rewrite put_end. exists post. cbn. auto.
  - destruct f as [|c f]; [cbn in L |- *; destruct post as [|x post]; [cbn in L; lia|]; rewrite put_end; exists post; cbn; auto|].
    cbn [List.length] in LF. destruct post as [|x post]; [cbn in L; lia|]. cbn [fill]. rewrite put_end. cbn [obind].
    assert (STEP : List.length (c :: expand f args) < List.length (x :: post) -> exists rest, fill f args (S (List.length pre)) (pre ++ c :: post) = Some (pre ++ (c :: expand f args) ++ NUL :: rest) /\ List.length (c :: expand f args) + S (List.length rest) = List.length (x :: post)).
    { cbn [List.length]. intro L'. destruct (IH f args (pre ++ [c]) post) as (rest & E & LE); [lia|exact PA|lia|]. exists rest. rewrite app_length, <- !app_assoc in E. cbn [List.length app] in E. rewrite Nat.add_1_r in E. cbn [app]. split; [exact E|lia]. }
    cbn [expand] in L |- *. destruct f as [|c' f]; [destruct args; apply STEP; exact L|]. destruct args as [|a args]; [apply STEP; exact L|].
    destruct (byte_eqb c "%"%char && byte_eqb c' "s"%char) eqn:PC; [|apply STEP; exact L]. rewrite app_length in L. cbn [List.length] in L.
    inversion PA as [|? ? P1 P2]; subst. destruct (@tnamerr_end a pre (c :: post) P1) as (rest & E & LE); [cbn [List.length]; lia|]. rewrite E. cbn [obind]. cbn [List.length] in LE.
    replace (List.length pre + List.length a) with (List.length (pre ++ a)) by apply app_length. rewrite app_assoc.
    destruct (IH f args (pre ++ a) (NUL :: rest)) as (rest' & E' & LE'); [cbn [List.length] in LF; lia|exact P2|cbn [List.length]; lia|]. exists rest'. rewrite E'. rewrite app_length, <- !app_assoc. cbn [List.length] in LE' |- *. split; [reflexivity|lia].
Qed.
Lemma read_end s rest : (forall c, In c s -> byte_eqb c NUL = false) -> read_string (s ++ NUL :: rest) = Some s.
Proof. induction s as [|c s IH]; intro H; cbn; [reflexivity|]. rewrite (H c (or_introl eq_refl)), IH; [reflexivity|]. intros d I. apply H. now right. Qed.

(** ** The tables *)
Definition has {A} (o : option A) : bool := match o with Some _ => true | None => false end.
Definition name_ok (t : Z) : bool :=
  match name_at t with
  | Some (c :: s) => bytes_eqb (c :: s) (tok_name t) && negb (byte_eqb c """"%char) && forallb (fun c => negb (byte_eqb c NUL)) (c :: s) && (List.length (c :: s) <=? 17)
  | _ => false
  end.
Definition reads_ok (s : Z) : bool :=
  match get yypact s with
  | Some p => let xbegin := if (p <? 0)%Z then (- p)%Z else 0%Z in
              forallb (fun x => if (x + p <=? YYLAST)%Z then has (get yycheck (x + p)) && has (get yytable (x + p)) else true) (zrange (Z.to_nat (YYNTOKENS - xbegin)) xbegin)
  | None => false
  end.
Definition names_size (l : list Z) : nat := fold_right (fun t n => List.length (tok_name t) + n) 0 l.
Definition fits (s : Z) : bool := let ex := expected_tokens s in if 4 <? List.length ex then true else names_size ex <=? 33.
Lemma names_checked : forallb name_ok all_tokens = true.
Proof. vm_cast_no_check (eq_refl true). Qed.
Lemma reads_checked : forallb reads_ok all_states = true.
Proof. vm_cast_no_check (eq_refl true). Qed.
Lemma fits_checked : forallb fits all_states = true.
Proof. vm_cast_no_check (eq_refl true). Qed.

Lemma name_facts t : (0 <= t < 199)%Z -> name_at t = Some (tok_name t) /\ plain_name (tok_name t) /\ List.length (tok_name t) <= 17.
Proof.
  intro R. pose proof names_checked as C. rewrite forallb_forall in C. specialize (C t ltac:(apply zrange_In; lia)). unfold name_ok in C.
  destruct (name_at t) as [[|c s]|]; [discriminate| |discriminate]. apply andb_prop in C as [C C4]. apply andb_prop in C as [C C3]. apply andb_prop in C as [C1 C2]. apply bytes_eqb_eq in C1. rewrite <- C1. split; [reflexivity|]. split; [split|].
  - intros d I. rewrite forallb_forall in C3. apply C3 in I. now destruct (byte_eqb d NUL).
  - now destruct (byte_eqb c """"%char).
  - now apply Nat.leb_le.
Qed.
Lemma size_facts t : (0 <= t < 199)%Z -> name_size t = Some (Z.of_nat (List.length (tok_name t))).
Proof. intro R. destruct (name_facts R) as (N & P & _). unfold name_size. rewrite N. cbn [obind]. now rewrite (tnamerr_size _ P). Qed.

Lemma expected_from_range n : forall x p t, In t (expected_from n x p) -> (x <= t < x + Z.of_nat n)%Z.
Proof.
  induction n as [|n IH]; intros x p t I; cbn [expected_from] in I; [contradiction|]. destruct (match get yycheck (x + p) with Some _ => _ | None => _ end).
  - destruct I as [<-|I]; [lia|]. apply IH in I. lia.
  - apply IH in I. lia.
Qed.
Definition sum_size (args : list bytes) : nat := fold_right (fun s n => List.length s + n) 0 args.
Lemma sum_snoc args s : sum_size (args ++ [s]) = sum_size args + List.length s.
Proof. induction args as [|a args IH]; cbn; [lia|]. unfold sum_size in IH. lia. Qed.
Lemma collect_eq n : forall x p size0 args, (0 <= x)%Z -> (x + Z.of_nat n <= 199)%Z -> (forall y, (x <= y < x + Z.of_nat n)%Z -> has (get yycheck (y + p)) = true /\ has (get yytable (y + p)) = true) ->
  args <> [] -> List.length args <= 5 -> sum_size args <= 17 * List.length args ->
  collect n x p size0 (Z.of_nat (sum_size args)) args =
  let ex := expected_from n x p in
  if 5 <? List.length args + List.length ex then Some (Some (firstn 1 args, size0)) else Some (Some (args ++ map tok_name ex, Z.of_nat (sum_size (args ++ map tok_name ex)))).
Proof.
  induction n as [|n IH]; intros x p size0 args X0 XN RD NE LA SA; cbv zeta.
  - cbn [collect expected_from List.length map]. rewrite app_nil_r. destruct (Nat.ltb_spec 5 (List.length args + 0)); [lia|reflexivity].
  - cbn [collect expected_from]. destruct (RD x ltac:(lia)) as [C T]. destruct (get yycheck (x + p)) as [k|]; [|discriminate]. destruct (get yytable (x + p)) as [y|]; [|discriminate]. cbn [obind].
    assert (REST : forall args, args <> [] -> List.length args <= 5 -> sum_size args <= 17 * List.length args -> collect n (x + 1) p size0 (Z.of_nat (sum_size args)) args =
      let ex := expected_from n (x + 1) p in if 5 <? List.length args + List.length ex then Some (Some (firstn 1 args, size0)) else Some (Some (args ++ map tok_name ex, Z.of_nat (sum_size (args ++ map tok_name ex))))).
    { intros args' N L S. apply IH; [lia|lia| |exact N|exact L|exact S]. intros z Z. apply RD. lia. }
    cbv zeta in REST. destruct (k =? x)%Z; cbn [obind negb andb]; [|apply REST; assumption]. destruct (x =? 1)%Z; cbn [obind negb andb]; [apply REST; assumption|]. destruct (y =? YYTABLE_NINF)%Z; cbn [obind negb]; [apply REST; assumption|].
    unfold YYERROR_VERBOSE_ARGS_MAXIMUM. cbn [List.length]. destruct (Nat.eqb_spec (List.length args) 5) as [E5|N5].
    { destruct (Nat.ltb_spec 5 (List.length args + S (List.length (expected_from n (x + 1) p)))); [reflexivity|lia]. }
    destruct (@name_facts x ltac:(lia)) as (NA & _ & NL). rewrite NA. rewrite (@size_facts x) by lia. cbn [obind]. unfold push_arg, YYERROR_VERBOSE_ARGS_MAXIMUM. destruct (Nat.ltb_spec (List.length args) 5); [|lia]. cbn [obind].
    unfold size_add, size_max. rewrite Z.mod_small by lia.
    pose proof (sum_snoc args (tok_name x)) as SS.
    destruct (Z.leb_spec (Z.of_nat (sum_size args)) (Z.of_nat (sum_size args) + Z.of_nat (List.length (tok_name x)))); [|lia].
    destruct (Z.leb_spec (Z.of_nat (sum_size args) + Z.of_nat (List.length (tok_name x))) (2 ^ 64 - 1)); [|lia]. cbn [andb negb].
    rewrite <- Nat2Z.inj_add, <- SS, REST; [|intro F; now apply app_eq_nil in F as [_ F]|rewrite app_length; cbn [List.length]; lia|rewrite SS, app_length; cbn [List.length]; lia].
    rewrite app_length. cbn [List.length map]. rewrite <- !app_assoc. cbn [app]. rewrite <- Nat.add_assoc. cbn [Nat.add].
    destruct (Nat.ltb_spec 5 (List.length args + S (List.length (expected_from n (x + 1) p)))); [|reflexivity]. destruct args as [|a args]; [contradiction|reflexivity].
Qed.

Lemma yytname_eq (l : list Z) : sum_size (map tok_name l) = names_size l.
Proof. induction l as [|t l IH]; [reflexivity|]. cbn -[tok_name]. unfold sum_size, names_size in IH. now rewrite IH. Qed.
Lemma sum_app a b : sum_size (a ++ b) = sum_size a + sum_size b.
Proof. induction a as [|x a IH]; cbn; [reflexivity|]. unfold sum_size in IH |- *. lia. Qed.

(** The tokens that the loop finds, cut off as [syntax_message] does. *)
Definition shown_tokens (s : Z) : list Z := let ex := expected_tokens s in if 4 <? List.length ex then [] else ex.
Lemma message_expand s t : syntax_message s (Some t) = match format_of (S (List.length (shown_tokens s))) with Some f => expand f (tok_name t :: map tok_name (shown_tokens s)) | None => [] end.
Proof.
  unfold syntax_message, shown_tokens. cbv zeta. replace (4 <? Z.of_nat (List.length (expected_tokens s)))%Z with (4 <? List.length (expected_tokens s)) by (destruct (Nat.ltb_spec 4 (List.length (expected_tokens s))), (Z.ltb_spec 4 (Z.of_nat (List.length (expected_tokens s)))); lia).
  destruct (expected_tokens s) as [|a [|b [|c [|d [|x l]]]]]; cbn -[tok_name]; rewrite ?app_nil_r, <- ?app_assoc; reflexivity.
Qed.
Lemma message_size s t : (0 <= s < 656)%Z -> (0 <= t < 199)%Z -> List.length (syntax_message s (Some t)) < 128 /\
  exists f, format_of (S (List.length (shown_tokens s))) = Some f /\ sum_size (tok_name t :: map tok_name (shown_tokens s)) + List.length f <= 128.
Proof.
  intros RS RT. destruct (name_facts RT) as (_ & _ & L). pose proof fits_checked as C. rewrite forallb_forall in C. specialize (C s ltac:(apply zrange_In; lia)). unfold fits in C. cbv zeta in C.
  assert (SZ : names_size (shown_tokens s) <= 33). { unfold shown_tokens. cbv zeta. destruct (4 <? List.length (expected_tokens s)); [cbn; lia|now apply Nat.leb_le]. }
  assert (LN : List.length (shown_tokens s) <= 4). { unfold shown_tokens. cbv zeta. destruct (Nat.ltb_spec 4 (List.length (expected_tokens s))); cbn; lia. }
  rewrite message_expand. cbn [sum_size fold_right]. fold (sum_size (map tok_name (shown_tokens s))). rewrite yytname_eq. revert SZ LN.
  destruct (shown_tokens s) as [|a [|b [|c [|d [|x l]]]]]; cbn -[tok_name]; intros SZ LN; try lia; (split; [rewrite ?app_length; cbn -[tok_name]; rewrite ?app_length; cbn -[tok_name]; rewrite ?app_length; cbn -[tok_name]; rewrite ?app_length; cbn -[tok_name]; rewrite ?app_length; cbn -[tok_name]; lia|eexists; split; [reflexivity|cbn -[tok_name]; lia]]).
Qed.

(** ** C69 *)
Lemma collect_run s t : (0 <= s < 656)%Z -> (0 <= t < 199)%Z -> forall size0, size0 = Z.of_nat (List.length (tok_name t)) ->
  match get yypact s with
  | Some p => if (p =? YYPACT_NINF)%Z then shown_tokens s = []
              else let xbegin := if (p <? 0)%Z then (- p)%Z else 0%Z in let checklim := (YYLAST - p + 1)%Z in let xend := if (checklim <? YYNTOKENS)%Z then checklim else YYNTOKENS in
                   collect (Z.to_nat (xend - xbegin)) xbegin p size0 size0 [tok_name t] = Some (Some (tok_name t :: map tok_name (shown_tokens s), Z.of_nat (sum_size (tok_name t :: map tok_name (shown_tokens s)))))
  | None => False
  end.
Proof.
  intros RS RT size0 ->. destruct (name_facts RT) as (_ & _ & NL). pose proof reads_checked as C. rewrite forallb_forall in C. specialize (C s ltac:(apply zrange_In; lia)). unfold reads_ok in C.
  unfold shown_tokens, expected_tokens. destruct (get yypact s) as [p|]; [|discriminate]. destruct (p =? YYPACT_NINF)%Z; [reflexivity|]. cbv zeta in C |- *.
  set (b := if (p <? 0)%Z then (- p)%Z else 0%Z) in *. set (e := if (YYLAST - p + 1 <? YYNTOKENS)%Z then (YYLAST - p + 1)%Z else YYNTOKENS).
  assert (B0 : (0 <= b)%Z) by (unfold b; destruct (Z.ltb_spec p 0); lia).
  assert (E1 : (e <= YYNTOKENS)%Z) by (unfold e; destruct (Z.ltb_spec (YYLAST - p + 1) YYNTOKENS); lia).
  assert (E2 : (e <= YYLAST - p + 1)%Z) by (unfold e; destruct (Z.ltb_spec (YYLAST - p + 1) YYNTOKENS); lia).
  clearbody b e. pose proof (@collect_eq (Z.to_nat (e - b)) b p (Z.of_nat (List.length (tok_name t))) [tok_name t]) as K. cbn [sum_size fold_right] in K. rewrite Nat.add_0_r in K.
  assert (BE : (b <= e)%Z \/ Z.to_nat (e - b) = 0) by lia. destruct BE as [BE|BE].
  2:{ rewrite BE. cbn -[tok_name]. now rewrite Nat.add_0_r. }
  rewrite K; clear K; [|exact B0|change YYNTOKENS with 199%Z in E1; lia| |discriminate|cbn; lia|cbn [List.length]; lia].
  - cbv zeta. cbn [List.length firstn app Nat.add]. set (ex := expected_from _ _ _).
    change (5 <? S (List.length ex)) with (4 <? List.length ex). destruct (4 <? List.length ex); [cbn -[tok_name]; now rewrite Nat.add_0_r|reflexivity].
  - intros y Y. rewrite forallb_forall in C. specialize (C y ltac:(apply zrange_In; change YYNTOKENS with 199%Z in *; lia)). destruct (Z.leb_spec (y + p) YYLAST); [|lia]. now apply andb_prop in C.
Qed.

(** The call at yyerrlab, with any state of the automaton and any token: no access goes outside a table, a string or the buffer, the first call succeeds in the
    buffer of 128 bytes (so nothing is allocated, and the message is not replaced by a shorter one), and the text is the message of the parser model. *)
Theorem C69_composed : forall b fresh s t, List.length b = yymsgbuf_size -> (0 <= s < 656)%Z -> (0 <= t < 199)%Z ->
  error_text b fresh s (Some t) = Some (syntax_message s (Some t), None).
Proof.
  intros b fresh s t LB RS RT. destruct (name_facts RT) as (NA & PN & NL). pose proof (collect_run RS RT eq_refl) as CR. destruct (message_size RS RT) as (ML & f & F & FS).
  assert (PA : Forall plain_name (tok_name t :: map tok_name (shown_tokens s))).
  { constructor; [exact PN|]. apply Forall_forall. intros n I. apply in_map_iff in I as (x & <- & I). assert (X : (0 <= x < 199)%Z); [|now apply name_facts].
    unfold shown_tokens in I. cbv zeta in I. destruct (4 <? _); [contradiction|]. unfold expected_tokens in I. destruct (get yypact s) as [p|]; [|contradiction]. destruct (p =? YYPACT_NINF)%Z; [contradiction|]. cbv zeta in I.
    apply expected_from_range in I. change YYNTOKENS with 199%Z in I. revert I. destruct (Z.ltb_spec (YYLAST - p + 1) 199), (Z.ltb_spec p 0); lia. }
  assert (RUN : yysyntax_error (Z.of_nat yymsgbuf_size) b s (Some t) = b' <-o fill f (tok_name t :: map tok_name (shown_tokens s)) 0 b ; Some (Written b')).
  { unfold yysyntax_error. rewrite (size_facts RT). cbn [obind]. destruct (get yypact s) as [p|]; [|contradiction]. cbn [obind]. rewrite NA. cbn [obind push_arg List.length YYERROR_VERBOSE_ARGS_MAXIMUM Nat.ltb Nat.leb app].
    match goal with |- obind ?o _ = _ => assert (O : o = Some (Some (tok_name t :: map tok_name (shown_tokens s), Z.of_nat (sum_size (tok_name t :: map tok_name (shown_tokens s)))))) end.
    { destruct (p =? YYPACT_NINF)%Z; [rewrite CR; cbn -[tok_name]; now rewrite Nat.add_0_r|exact CR]. }
    rewrite O. cbn [obind]. replace (List.length (tok_name t :: map tok_name (shown_tokens s))) with (S (List.length (shown_tokens s))) by (cbn [List.length]; now rewrite map_length). rewrite F. cbn [obind].
    unfold size_add, size_max, yymsgbuf_size. rewrite Z.mod_small by lia. rewrite <- Nat2Z.inj_add.
    destruct (Z.leb_spec (Z.of_nat (sum_size (tok_name t :: map tok_name (shown_tokens s)))) (Z.of_nat (sum_size (tok_name t :: map tok_name (shown_tokens s)) + List.length f))); [|lia].
    destruct (Z.leb_spec (Z.of_nat (sum_size (tok_name t :: map tok_name (shown_tokens s)) + List.length f)) (2 ^ 64 - 1)); [|lia]. cbn [andb negb].
    destruct (Z.ltb_spec (Z.of_nat 128) (Z.of_nat (sum_size (tok_name t :: map tok_name (shown_tokens s)) + List.length f))); [lia|reflexivity]. }
  unfold error_text. rewrite RUN. pose proof (message_expand s t) as ME. rewrite F in ME. rewrite ME in ML |- *.
  destruct (@fill_end _ f _ [] b (le_n _) PA) as (rest & E & _); [rewrite LB; unfold yymsgbuf_size; lia|]. cbn [List.length app] in E. rewrite E. cbn [obind]. rewrite read_end; [reflexivity|].
  rewrite <- ME. intros c I. clear -I RS RT PA F ME. rewrite ME in I.
  assert (PF : forall c, In c f -> byte_eqb c NUL = false). { revert F. destruct (shown_tokens s) as [|? [|? [|? [|? [|? ?]]]]]; cbn [List.length format_of]; intro F; try discriminate F; injection F as <-; intros d D; repeat (destruct D as [<-|D]; [reflexivity|]); contradiction. }
  revert PF PA I. generalize (tok_name t :: map tok_name (shown_tokens s)) as args. clear. revert c. remember (List.length f) as n eqn:N. assert (LE : List.length f <= n) by lia. clear N. revert f LE.
  induction n as [|n IH]; intros f LE c args PF PA I; (destruct f as [|x f]; [contradiction|]); cbn [List.length] in LE; [lia|]. cbn [expand] in I.
  assert (ONE : In c (x :: expand f args) -> byte_eqb c NUL = false). { intros [<-|I']; [apply PF; now left|]. apply (IH f ltac:(lia) c args); [intros d D; apply PF; now right|exact PA|exact I']. }
  destruct f as [|y f]; [destruct args; now apply ONE|]. destruct args as [|a args]; [now apply ONE|]. destruct (byte_eqb x "%"%char && byte_eqb y "s"%char); [|now apply ONE].
  inversion PA as [|? ? [P1 _] P2]; subst. apply in_app_or in I as [I|I]; [now apply P1|]. cbn [List.length] in LE. apply (IH f ltac:(lia) c args); [intros d D; apply PF; now do 2 right|exact P2|exact I].
Qed.

(** Without a lookahead token the code would read yytname[-2] (bison_parser.cpp:1801 does not look at YYEMPTY)... *)
Theorem C69_needs_a_token : forall b fresh s, error_text b fresh s None = None.
Proof. reflexivity. Qed.
(** ...but every failed parse that reports a syntax error has read one: its message is the one composed by the C code for a state of the automaton and a token read. *)
Theorem C69_messages : forall buf0 sql ts r e, tokens sql ts -> parse buf0 sql fresh_env = PRet r e -> e_valid e = false ->
  (exists s t adr m, In t ts /\ e_msg e = VStr adr m /\ forall b fresh, List.length b = yymsgbuf_size -> error_text b fresh s (Some (Z.of_N (sym_of t))) = Some (m, None)) \/
  (exists adr m, e_msg e = VStr adr m /\ (m = la "memory exhausted" \/ check_message m)).
Proof.
  intros buf0 sql ts r e T P V. pose proof (proj2 (C20_errors _ _ _ _ _ T P) V) as ((adr0 & m0 & M0) & _). destruct (tokens_end T) as (EE & TO & LB). unfold parse in P. rewrite LB in P. destruct (yyparse ts fresh_env) as [r1 e1|u|] eqn:Y; try discriminate P. injection P as <- <-.
  cbn [set_valid e_valid] in V. assert (R1 : r1 <> 0%Z) by lia. destruct (@yyparse_prefix ts fresh_env (fun _ => 0) TO eq_refl eq_refl r1 e1 EE (heap_fresh) Y) as (a & seen & H & TS & ES & W & _).
  specialize (W R1). subst seen. destruct W as [W WS]. destruct W as [(_ & E & (x & M) & AL)|[(_ & E & (x & M) & LK & AL)|(_ & a' & E & S)]].
  - right. exists x. eexists. split; [exact M|]. now left.
  - left. destruct (a_look a) as [t|] eqn:LA; [|congruence]. exists (atop (a_stk a)), t, x. eexists. split; [rewrite TS, !in_app_iff; unfold alook; rewrite LA; cbn; auto|]. split; [exact M|].
    intros b fresh B. apply C69_composed; [exact B|exact (atop_range H)|apply sym_Z].
  - right. destruct (WS ltac:(eauto)) as [MN|(adr & m & MS & CM)]; [cbn [set_valid e_msg] in M0; congruence|]. exists adr, m. split; [exact MS|now right].
Qed.

Example C69_example : error_text (repeat "x"%char 128) (fun n => repeat "y"%char (Z.to_nat n)) 0 (Some 3%Z) = Some (la "syntax error, unexpected IDENTIFIER", None) /\
  yysyntax_error 40 (repeat "x"%char 40) 2 (Some 3%Z) <> None.
Proof. split; [vm_compute; reflexivity|vm_compute; discriminate]. Qed.
