(** C52: the scanner stays in its buffer.  C53: SQLParser::parse with the scanner's memory.  C54: SQLParser::tokenize with its memory. *)
From Verif Require Import Base FlexTables TokenCodes LexRules LexModel LexMatch LexTotal LexProof LexScan LexRel Ast Heap Actions ParseModel Api Own InvRun ParseProof PropParse PropResult Scan ScanProof Session SessionProof.
From Verif Require Import Sem Grammar PropGrammar Meaning InvStep.
From Coq Require Import Lia ZifyBool ZifyNat ZifyN.
Local Open Scope nat_scope.
Set Implicit Arguments.

(** The text, without what follows an embedded NUL, is short enough for the scanner's int arithmetic. *)
Definition fits (sql : bytes) : Prop := (Z.of_nat (List.length (c_string sql)) + 2 <= 2147483647)%Z.

(** ** C52 *)
(** [n] calls of hsql_lex after hsql__scan_string, whatever they return: [None] if one of them accesses memory outside the buffer, dereferences a null pointer, ends the
    process with a fatal scanner error, or does not come to an end in as many rounds as the buffer has bytes. *)
Fixpoint lex_calls (n : nat) (g : scanner) (buf : bytes) (pos : lexpos) : option (list (Z * tokval)) :=
  match n with
  | 0 => Some []
  | S n' =>
    o <-o yylex (S (List.length (g_mem g))) g buf pos ;
    let '(c, v, g', buf', pos') := o in
    l <-o lex_calls n' g' buf' pos' ; Some ((c, v) :: l)
  end.
Lemma lex_calls_ok : forall n g buf pos pre rest, at_rest g pre rest -> is_start (g_start g) -> List.length rest < List.length (g_mem g) ->
  exists l, lex_calls n g buf pos = Some l /\ List.length l = n /\ (List.length rest < n -> last l (0, TVNone)%Z = (0, TVNone)%Z).
Proof.
  induction n as [|n IH]; intros g buf pos pre rest A I L; [exists []; cbn; auto|]. cbn [lex_calls].
  assert (LF : List.length rest < S (List.length (g_mem g))) by lia.
  destruct (@yylex_ok (S (List.length (g_mem g))) g buf pos pre rest A I LF) as (c & v & g' & buf' & pos' & pre' & rest' & E & A' & I' & P & M & LE & LT & _). rewrite E. cbn [obind].
  destruct (IH g' buf' pos' pre' rest' A' I') as (l & E2 & L2 & Z2); [lia|]. rewrite E2. cbn [obind]. exists ((c, v) :: l). split; [reflexivity|]. split; [cbn; lia|]. intro K.
  destruct l as [|x l].
  - destruct n; [|discriminate L2]. assert (R0 : rest = []) by (destruct rest; [reflexivity|cbn in K; lia]). subst rest.
    cbn [yylex] in E. destruct (scan_once_ok A (lex_match_eof I) eq_refl) as (g2 & F & _). rewrite F in E. cbn [obind] in E. injection E as <- <- _ _ _. reflexivity.
  - change (last ((c, v) :: x :: l) (0, TVNone)%Z) with (last (x :: l) (0, TVNone)%Z). destruct LT as [LT|[-> _]]; [apply Z2; lia|]. apply Z2. cbn in LE |- *. destruct rest'; [|cbn in LE; lia]. destruct n; [discriminate L2|cbn; lia].
Qed.
(** The scanner reads from the buffer what LexModel.v says; any number of calls, also after the end of the input, stays inside the buffer and returns; after as many calls as the
    text has bytes, hsql_lex only returns 0. *)
Theorem C52_scanner_stays_in_its_buffer : forall buf0 sql yylloc n, fits sql ->
  (exists ts, scan_all buf0 sql = Some ts /\ tokens sql ts) /\
  exists g, scan_string sql = Some g /\ g_mem g = c_string sql ++ [NUL; NUL] /\
    exists l, lex_calls n g buf0 yylloc = Some l /\ List.length l = n /\ (List.length (c_string sql) < n -> last l (0, TVNone)%Z = (0, TVNone)%Z).
Proof.
  intros buf0 sql yylloc n L. split.
  - destruct (tokens_total sql) as (ts & T & _ & _ & LB). exists ts. split; [rewrite (@scan_all_ok buf0 sql L); apply LB|exact T].
  - destruct (@scan_string_ok sql L) as (g & E & A & S & M). exists g. split; [exact E|]. split.
    + unfold scan_string in E. cbv zeta in E. destruct (Z.of_nat (List.length (c_string sql)) + 2 <=? INT_MAX)%Z; [|discriminate E]. destruct (rd (c_string sql ++ [NUL; NUL]) 0); cbn [obind] in E; [|discriminate E]. injection E as <-. reflexivity.
    + apply (@lex_calls_ok n g buf0 yylloc [] (c_string sql) A); [rewrite S; left; reflexivity|lia].
Qed.
(** A string that is not closed: the scanner has to back up over the whole rest of the buffer; and calls behind the end. *)
Example C52_example : exists g l, fits (la "SELECT 1.5e FROM t WHERE a <> 'abc") /\ scan_string (la "SELECT 1.5e FROM t WHERE a <> 'abc") = Some g /\ lex_calls 12 g [] pos0 = Some l /\
  map fst l = [TOK_SELECT; TOK_FLOATVAL; TOK_IDENTIFIER; TOK_FROM; TOK_IDENTIFIER; TOK_WHERE; TOK_IDENTIFIER; TOK_NOTEQUALS; 0; 0; 0; 0]%Z.
Proof. eexists _, _. split; [vm_compute; discriminate|]. split; [vm_compute; reflexivity|]. split; vm_compute; reflexivity. Qed.

(** ** C53 *)
(** Whatever the scanner's memory adds, a parse ends as described by the theorems about [parse] (C01 - C51): same verdict, same statements and number of parameters; ... *)
Theorem C53_same_result : forall buf0 buf1 sql c e c' e', fits sql -> parse_full buf0 sql fresh_env = PRet c e -> parse buf1 sql fresh_env = PRet c' e' ->
  e_valid e = e_valid e' /\ (e_valid e = true -> map erase (e_stmts e) = map erase (e_stmts e') /\ List.length (e_params e) = List.length (e_params e')).
Proof.
  intros buf0 buf1 sql c e c' e' L E E'. destruct (tokens_total sql) as (ts & T & _).
  destruct (@full_parse buf0 sql fresh_env (fun _ => 0) L eq_refl eq_refl) as (l & e1 & S1 & H1 & O); [eapply heap_ext; [apply heap_fresh|reflexivity]|].
  destruct S1 as [(Q1 & Q2 & Q3 & Q4 & Q5) (Q6 & Q7 & Q8 & Q9)].
  destruct (parse buf0 sql e1) as [r e2|u|] eqn:P1; [|congruence|destruct O]. destruct O as (e3 & E3 & ((R1 & R2 & R3 & R4 & R5) & (R6 & R7 & R8 & R9)) & F). rewrite E in E3. injection E3 as <- <-.
  pose proof (@parse_valid buf0 sql ts e1 _ T Q7 Q2 H1 c e2 P1) as V. pose proof (parse_valid (B := fun _ => 0) (e0 := fresh_env) T eq_refl eq_refl heap_fresh E') as V'.
  assert (VV : e_valid e2 = e_valid e'). { destruct (e_valid e2), (e_valid e'); try reflexivity; [symmetry; apply V', V|apply V, V']; reflexivity. }
  split; [congruence|]. intro VE. assert (VE2 : e_valid e2 = true) by congruence. apply V in VE2. destruct VE2 as (l0 & n & MM).
  pose proof (proj2 (@parse_means buf0 sql ts e1 _ T Q7 Q2 H1 l0 n) MM) as (e4 & l2 & A1 & _ & A2 & A3 & A4). rewrite P1 in A1. injection A1 as _ <-.
  pose proof (proj2 (parse_means (B := fun _ => 0) buf1 (e0 := fresh_env) T eq_refl eq_refl heap_fresh l0 n) MM) as (e5 & l3 & B1 & _ & B2 & B3 & B4). rewrite E' in B1. injection B1 as _ <-.
  rewrite Q1 in A2. cbn [fresh_env e_stmts app] in A2, B2. rewrite R1, A2, A3, B2, B3, R2. split; [reflexivity|congruence].
Qed.
(** ... it always returns, or an interval literal overflows (C02); ... *)
Theorem C53_returns : forall buf0 sql, fits sql ->
  (exists r e, parse_full buf0 sql fresh_env = PRet r e) \/
  parse_full buf0 sql fresh_env = PUB UScanf /\ exists ts t s, tokens sql ts /\ In t ts /\ t_code t = TOK_STRING /\ t_val t = TVStr s /\ huge_number s.
Proof.
  intros buf0 sql L. destruct (tokens_total sql) as (ts & T & EE & TO & _). pose proof (@parse_full_inv buf0 sql ts fresh_env (fun _ => 0) L T eq_refl eq_refl) as O.
  specialize (O ltac:(eapply heap_ext; [apply heap_fresh|reflexivity])). destruct (parse_full buf0 sql fresh_env) as [r e|u|]; [left; eauto|right|destruct O]. cbn [parse_outcome] in O.
  destruct O as (-> & t & s & I & ST & V & B). split; [reflexivity|]. exists ts, t, s. split; [exact T|]. split; [exact I|].
  assert (R : (0 <= t_code t < 1000)%Z).
  { destruct (lex_all_codes T) as (ts' & tn & EQ & TN & _ & F). subst ts. apply in_app_iff in I as [I|[<-|[]]]; [rewrite Forall_forall in F; specialize (F _ I); lia|lia]. }
  split; [|split; [exact V|now apply scan_SUB]]. unfold sym_of in ST.
  assert (A : forallb (fun z => (z =? TOK_STRING)%Z || negb (N.eqb (sym_of_code z) S_STRING)) (TableCheck.zrange 1000 0) = true) by (vm_compute; reflexivity).
  rewrite forallb_forall in A. assert (IZ : In (t_code t) (TableCheck.zrange 1000 0)) by (apply TableCheck.zrange_In; lia). specialize (A _ IZ). rewrite ST, N.eqb_refl in A. cbn [negb] in A. rewrite orb_false_r in A. lia.
Qed.
(** ... and when it has returned, the scanner's memory is released: destroying the result leaves nothing, under the conditions of C23. *)
Theorem C53_memory : forall buf0 sql ts r e, fits sql -> tokens sql ts -> parse_full buf0 sql fresh_env = PRet r e ->
  exists e', destroy (the_result e) e = ROk tt e' /\
    (e_valid e = true -> exists stmts semi eof, derives S_input (Node 2 [stmts; semi]) /\ yield (Node 2 [stmts; semi]) ++ [eof] = ts /\ (leak_free stmts = true -> e_live e' = [])) /\
    (e_valid e = false -> InvStep.clean ts = true -> e_live e' = []).
Proof.
  intros buf0 sql ts r e L T E. pose proof (@parse_full_inv buf0 sql ts fresh_env (fun _ => 0) L T eq_refl eq_refl) as P.
  specialize (P ltac:(eapply heap_ext; [apply heap_fresh|reflexivity])). rewrite E in P. cbn [parse_outcome] in P.
  destruct P as [(_ & V & e1 & -> & (tl & semi & k & lost & D & Y & K & EQ & [RS RP] & H & LF))|(_ & V & e1 & -> & ((V1 & M & _) & ST & lost & H & LF))].
  - destruct RS as (l & ES & WL & RS'). cbn [e_stmts fresh_env app] in ES. destruct EQ as (_ & EM & _). cbn [e_msg fresh_env] in EM.
    destruct (@destroy_ok (set_valid true e1) lost) as (e' & E1 & H1).
    { unfold sound_result, the_result. cbn [r_stmts r_msg set_valid e_stmts e_msg]. rewrite ES. split; [exact WL|now left]. }
    { apply (@heap_env e1); [reflexivity|reflexivity|]. eapply heap_ext; [exact H|]. intro x. unfold owned, the_result. cbn [r_stmts r_msg set_valid e_stmts e_msg]. rewrite EM. cbn [ca]. lia. }
    exists e'. split; [exact E1|]. split; [|discriminate]. intros _. exists tl, semi, k. split; [exact D|]. split; [cbn [yield flat_map]; rewrite app_nil_r, <- app_assoc; exact Y|].
    intro F. apply heap_empty. eapply heap_ext; [exact H1|]. exact (lost_blocks_zero LF (leak_free_count F)).
  - assert (W : wtl (e_stmts e1) TFinal).
    { destruct ST as [[-> _]|(tl & semi & rest & _ & _ & [RS _])]; [constructor|]. destruct RS as (l & ES & WL & _). cbn [e_stmts fresh_env app] in ES. now rewrite ES. }
    destruct (@destroy_ok (set_valid false e1) lost) as (e' & E1 & H1).
    { unfold sound_result, the_result. cbn [r_stmts r_msg set_valid e_stmts e_msg]. split; [exact W|right; exact M]. }
    { apply (@heap_env e1); [reflexivity|reflexivity|]. eapply heap_ext; [exact H|]. intro x. unfold owned, the_result. cbn [r_stmts r_msg set_valid e_stmts e_msg]. lia. }
    exists e'. split; [exact E1|]. split; [discriminate|]. intros _ C. apply heap_empty. eapply heap_ext; [exact H1|]. exact (LF C).
Qed.
Example C53_example : exists e e', fits (la "SELECT a AS b, 'x' FROM s.t WHERE c = ?; DROP TABLE u") /\ parse_full [] (la "SELECT a AS b, 'x' FROM s.t WHERE c = ?; DROP TABLE u") fresh_env = PRet 0 e /\ e_valid e = true /\
  List.length (e_stmts e) = 2 /\ ~ In 1%N (e_live e) /\ e_live e <> [] /\ destroy (the_result e) e = ROk tt e' /\ e_live e' = [].
Proof.
  eexists _, _. split; [vm_compute; discriminate|]. split; [vm_compute; reflexivity|]. split; [reflexivity|]. split; [reflexivity|]. split; [vm_compute; intuition discriminate|].
  split; [vm_compute; discriminate|]. split; vm_compute; reflexivity.
Qed.

(** ** C54 *)
(** A machine in order: the live blocks are different and were allocated. *)
Definition machine_ok (e : env) : Prop := NoDup (e_live e) /\ Forall (fun x => (x < e_next e)%N) (e_live e).
(** The first token is an identifier or a string literal. *)
Definition starts_with_text (sql : bytes) : bool :=
  match lex_all [] sql with Some (t :: _) => (t_code t =? TOK_IDENTIFIER)%Z || (t_code t =? TOK_STRING)%Z | _ => false end.
Lemma machine_heap e : machine_ok e -> heap e (fun x => cntN x (e_live e)).
Proof.
  intros [N F]. split; [reflexivity| |].
  - intro x. induction N as [|y l NI N IH]; cbn [cntN]; [lia|]. inversion F; subst. specialize (IH H2). unfold ind. destruct (N.eqb_spec y x) as [->|NE]; [|lia].
    assert (cntN x l = 0); [|lia]. clear -NI. induction l as [|z l IH]; cbn [cntN]; [reflexivity|]. unfold ind. destruct (N.eqb_spec z x) as [->|]; [destruct NI; now left|]. apply IH. intro I. apply NI. now right.
  - intros x C. rewrite Forall_forall in F. apply F. apply memN_In, cntN_mem. exact C.
Qed.
Lemma cntN_In x l : In x l <-> 1 <= cntN x l.
Proof.
  induction l as [|y l IH]; cbn [cntN In]; [split; [intros []|lia]|]. unfold ind. destruct (N.eqb_spec y x) as [->|NE]; [split; [lia|now left]|]. rewrite IH. split; [intros [E|E]; [congruence|lia]|intro; right; lia].
Qed.
Lemma heap_machine e f : heap e f -> machine_ok e.
Proof.
  intros [A B C]. split.
  - assert (Q : forall x, cntN x (e_live e) <= 1) by (intro x; rewrite A; apply B). clear -Q. induction (e_live e) as [|y l IH]; constructor.
    + intro I. specialize (Q y). cbn [cntN] in Q. rewrite ind_refl in Q. apply cntN_In in I. lia.
    + apply IH. intro x. specialize (Q x). cbn [cntN] in Q. lia.
  - apply Forall_forall. intros x I. apply C. rewrite <- A. now apply cntN_In.
Qed.
Lemma tokenize_memory buf0 sql yylloc out e f ts : fits sql -> tokens sql ts -> heap e f ->
  exists e', tokenize_full buf0 sql yylloc out e = ROk (out ++ token_codes ts) e' /\ same e e' /\
    if starts_with_text sql then exists a, heap e' (fun x => ind a x + f x) else heap e' f.
Proof.
  intros L T H. destruct (@tokenize_calls buf0 sql ts yylloc L T) as (ts' & E & EC). destruct (tokens_total sql) as (ts2 & T2 & _ & TO & _). assert (ts2 = ts) by (unfold tokens in *; congruence). subst ts2. clear T2.
  destruct (lex_all_codes T) as (ts0 & tn & ETS & TN & TNV & FC).
  assert (TO' : Forall (fun t => tok_ok t) ts' /\ (exists ts1 t, ts' = ts1 ++ [t] /\ t_code t = 0%Z /\ Forall (fun t => (0 < t_code t < 1000)%Z) ts1) /\ token_codes ts' = token_codes ts).
  { clear -EC TO ETS TN FC. assert (X : forall (a b : list token), map core a = map core b -> Forall tok_ok b -> Forall tok_ok a /\ token_codes a = token_codes b).
    { induction a as [|x a IH]; intros [|y b] Q F; try discriminate Q; [auto|]. injection Q as Q1 Q2 Q3. inversion F as [|? ? F1 F2]; subst. destruct (IH b Q3 F2) as (A & B). split.
      - constructor; [|exact A]. unfold tok_ok, sym_of in *. rewrite Q1, Q2. exact F1.
      - cbn [token_codes]. rewrite Q1, B. reflexivity. }
    destruct (X _ _ EC TO) as (A & B). split; [exact A|]. split; [|exact B]. subst ts. rewrite map_app in EC. apply map_eq_app in EC as (u & w & -> & EU & EW). cbn [map] in EW. destruct w as [|t [|? ?]]; try discriminate EW.
    injection EW as E1 E2. exists u, t. split; [reflexivity|]. split; [congruence|]. clear -EU FC. revert ts0 EU FC. induction u as [|x u IH]; intros [|y ts0] Q F; try discriminate Q; constructor; inversion F; subst; injection Q as Q1 Q2 Q3; [lia|eauto]. }
  destruct TO' as (TOK & COD & TC). destruct (open_ok H) as (g & k & s & c & e1 & E1 & H1 & S1). set (l := mkLexer g (Some k) (Some (s, c))) in *.
  destruct ts' as [|t ts']; [destruct COD as ([|? ?] & ? & X & _); discriminate X|]. inversion TOK as [|? ? TOK1 TOK2]; subst.
  assert (RT : (0 <= t_code t < 1000)%Z). { destruct COD as ([|z ts1] & tm & X & Z0 & F); injection X as -> X; [lia|inversion F; lia]. }
  destruct (value_ok (t_val t) H1) as (v & e2 & E2 & S2 & H2). pose proof (@texty_value t TOK1 RT) as TV.
  assert (ST : starts_with_text sql = texty (t_code t)). { unfold starts_with_text. rewrite T. destruct (ts0 ++ [tn]) as [|t1 ?]; [discriminate EC|]. injection EC as EC1 _ _. rewrite <- EC1. reflexivity. }
  rewrite ST. set (f2 := fun x => match t_val t with TVStr _ => match v with VStr a _ => ind a x | _ => 0 end | _ => 0 end).
  assert (H2' : heap e2 (fun x => blocks l x + (f2 x + f x))).
  { unfold f2. destruct (t_val t); [exact H2| |exact H2|exact H2]. destruct H2 as (a & s' & -> & H2). eapply heap_ext; [exact H2|]. intro x. cbn beta. lia. }
  assert (LP : exists e3, tokenize_loop (to_int16 (t_code t)) ts' out e2 = ROk (out ++ token_codes (t :: ts')) e3 /\ heap e3 (fun x => blocks l x + (f2 x + f x)) /\ same e2 e3).
  { cbn [token_codes]. rewrite (@int16_small (t_code t) RT). destruct (t_code t =? 0)%Z eqn:C0.
    - exists e2. apply Z.eqb_eq in C0. rewrite C0, app_nil_r. split; [destruct ts'; reflexivity|]. split; [exact H2'|apply same_refl].
    - apply loop_ok; [lia|exact TOK2| |exact H2']. destruct COD as ([|z ts1] & tm & X & Z0 & F); injection X as -> X; [lia|]. exists ts1, tm. inversion F; auto. }
  destruct LP as (e3 & E3 & H3 & S3). destruct (@close_ok l g k s c eq_refl e3 _ H3) as (e4 & E4 & H4 & S4). exists e4.
  split; [|split; [eapply same_trans; [exact S1|eapply same_trans; [exact S2|eapply same_trans; [exact S3|exact S4]]]|]].
  - assert (EQ : tokenize_full buf0 sql yylloc out e = match open_ e with ROk bl e1 =>
        (match (g <-o scan_string sql ; scan_tokens (S (List.length (c_string sql))) g buf0 yylloc) with
         | Some (t :: ts) => _ <- token_value (t_val t) ;; r <- tokenize_loop (to_int16 (t_code t)) ts out ;; _ <- close_ (fst bl) (snd bl) ;; ret r
         | _ => fail UTable end) e1 | RErr e1 => RErr e1 | RUB u => RUB u end).
    { unfold tokenize_full, open_, close_, bind, ret. destruct (lex_init_ e) as [l0 e0| |]; [|reflexivity|reflexivity]. destruct (scan_string_ l0 e0) as [bl e5| |]; [|reflexivity|reflexivity]. destruct (lexer_alive (snd bl) e5) as [? e6| |]; [|reflexivity|reflexivity].
      destruct (g0 <-o scan_string sql; scan_tokens (S (List.length (c_string sql))) g0 buf0 yylloc) as [[|t0 ts1]|]; try reflexivity. destruct (token_value (t_val t0) e6) as [? e7| |]; [|reflexivity|reflexivity]. destruct (tokenize_loop (to_int16 (t_code t0)) ts1 out e7) as [? e8| |]; [|reflexivity|reflexivity].
      destruct (lexer_alive (snd bl) e8) as [? e9| |]; [|reflexivity|reflexivity]. destruct (delete_buffer (fst bl) (snd bl) e9) as [? e10| |]; [|reflexivity|reflexivity]. destruct (lex_destroy a3 e10); reflexivity. }
    rewrite EQ, E1, E. unfold bind. rewrite E2, E3. cbn [fst snd]. rewrite E4. unfold ret. rewrite TC. reflexivity.
  - destruct (texty (t_code t)).
    + destruct TV as (s' & EV). rewrite EV in H2. destruct H2 as (a & s2 & -> & _). exists a. unfold f2 in H4. rewrite EV in H4. exact H4.
    + unfold f2 in H4. destruct (t_val t); [exact H4| |exact H4|exact H4]. destruct (TV s0 eq_refl).
Qed.
(** tokenize appends the codes of the parser's tokens, whatever its uninitialised location variable contains, leaves every block of the caller alone, and releases everything it
    allocates except the string of the first token, if that is an identifier or a string literal. *)
Theorem C54_tokenize_memory : forall buf0 sql yylloc out e, fits sql -> machine_ok e -> exists codes e' leaked,
  tokenize [] sql = Some codes /\ tokenize_full buf0 sql yylloc out e = ROk (out ++ codes) e' /\ the_result e' = the_result e /\ machine_ok e' /\
  List.length leaked = (if starts_with_text sql then 1 else 0) /\ (forall x, In x leaked -> ~ In x (e_live e)) /\ (forall x, In x (e_live e') <-> In x (e_live e) \/ In x leaked).
Proof.
  intros buf0 sql yylloc out e L M. destruct (tokens_total sql) as (ts & T & _). destruct (@tokenize_memory buf0 sql yylloc out e _ ts L T (machine_heap M)) as (e' & E & S & H).
  assert (RE : the_result e' = the_result e) by (destruct S as [(S1 & S2 & _) (S3 & S4 & S5 & S6)]; unfold the_result; congruence).
  assert (TK : tokenize [] sql = Some (token_codes ts)) by (unfold tokenize, tokens in *; rewrite T; reflexivity).
  destruct (starts_with_text sql).
  - destruct H as (a & H). exists (token_codes ts), e', [a]. split; [exact TK|]. split; [exact E|]. split; [exact RE|]. split; [exact (heap_machine H)|]. split; [reflexivity|]. split.
    + intros x [<-|[]] I. pose proof (heap_one H a) as O. cbn beta in O. rewrite ind_refl in O. apply cntN_In in I. lia.
    + intro x. rewrite cntN_In, (heap_live H x), cntN_In. cbn [In]. unfold ind. destruct (N.eqb_spec a x) as [->|NE]; [split; [intro; right; now left|lia]|]. split; [intro; left; lia|intros [?|[?|[]]]; [lia|congruence]].
  - exists (token_codes ts), e', []. split; [exact TK|]. split; [exact E|]. split; [exact RE|]. split; [exact (heap_machine H)|]. split; [reflexivity|]. split; [intros x []|].
    intro x. rewrite cntN_In, (heap_live H x), cntN_In. cbn [In]. tauto.
Qed.
(** A program that tokenizes one text after the other: how many blocks are lost. *)
Fixpoint tokenize_each (sqls : list bytes) (out : list Z) : M (list Z) :=
  match sqls with [] => ret out | s :: l => out' <- tokenize_full [] s pos0 out ;; tokenize_each l out' end.
Theorem C54_tokenize_many : forall sqls out, Forall fits sqls -> exists out' e, tokenize_each sqls out fresh_env = ROk out' e /\ List.length (e_live e) = List.length (filter starts_with_text sqls).
Proof.
  intros sqls out FI. assert (X : forall sqls out e, Forall fits sqls -> machine_ok e -> exists out' e', tokenize_each sqls out e = ROk out' e' /\ List.length (e_live e') = List.length (filter starts_with_text sqls) + List.length (e_live e)).
  { clear. induction sqls as [|s l IH]; intros out e F M; [exists out, e; split; reflexivity|]. inversion F as [|? ? F1 F2]; subst. cbn [tokenize_each filter].
    destruct (@C54_tokenize_memory [] s pos0 out e F1 M) as (codes & e1 & lk & _ & E & _ & M1 & LK & DJ & IN). unfold bind. rewrite E. destruct (IH (out ++ codes) e1 F2 M1) as (out' & e' & E' & LE). exists out', e'. split; [exact E'|]. rewrite LE.
    assert (LL : List.length (e_live e1) = List.length lk + List.length (e_live e)).
    { rewrite <- app_length. apply Permutation.Permutation_length. apply Permutation.NoDup_Permutation; [apply M1| |intro x; rewrite IN, in_app_iff; tauto].
      destruct lk as [|a [|b lk]]; cbn [app]; [apply M|constructor; [apply DJ; now left|apply M]|destruct (starts_with_text s); discriminate LK]. }
    rewrite LL, LK. destruct (starts_with_text s); cbn [List.length]; lia. }
  destruct (X sqls out fresh_env FI) as (out' & e & E & LE); [split; constructor|]. exists out', e. split; [exact E|]. rewrite LE. cbn. lia.
Qed.
Example C54_example : starts_with_text (la "foo = 'x'") = true /\ starts_with_text (la "SELECT a FROM b") = false /\
  (exists e, tokenize_full [] (la "foo = 'x' bar") (mkPos 7 8 9 10 11 12) [] fresh_env = ROk [TOK_IDENTIFIER; 61; TOK_STRING; TOK_IDENTIFIER]%Z e /\ List.length (e_live e) = 1) /\
  (exists e, tokenize_full [] (la "SELECT a FROM b") (mkPos 7 8 9 10 11 12) [] fresh_env = ROk [TOK_SELECT; TOK_IDENTIFIER; TOK_FROM; TOK_IDENTIFIER]%Z e /\ e_live e = []).
Proof. split; [vm_compute; reflexivity|]. split; [vm_compute; reflexivity|]. split; eexists; split; vm_compute; reflexivity. Qed.
