(** Proofs about Session.v: the scanner's blocks are allocated, alive and released exactly once; tokenize's strings. *)
From Verif Require Import Base FlexTables TokenCodes LexRules LexModel LexMatch LexTotal LexProof LexScan LexRel Ast Heap Actions ParseModel Api Own InvRun ParseProof Scan ScanProof Session.
From Coq Require Import Lia ZifyBool ZifyNat ZifyN.
Local Open Scope nat_scope.
Set Implicit Arguments.

Definition blocks (l : lexer) (x : N) : nat :=
  ind (y_guts l) x + match y_stack l with Some k => ind k x | None => 0 end + match y_current l with Some (s, c) => ind s x + ind c x | None => 0 end.
Definition open_ : M ((N * N) * lexer) := l <- lex_init_ ;; bl <- scan_string_ l ;; lexer_alive (snd bl) ;; ret bl.
Definition close_ (b : N * N) (l : lexer) : M unit := lexer_alive l ;; l' <- delete_buffer b l ;; lex_destroy l'.
Lemma alive_ok l e f g k s c : l = mkLexer g (Some k) (Some (s, c)) -> heap e (fun x => blocks l x + f x) -> lexer_alive l e = ROk tt e.
Proof.
  intros -> H. unfold lexer_alive, current_buffer, bind, ret. cbn [y_guts y_stack y_current fst snd].
  assert (A : forall a, (a = g \/ a = k \/ a = s \/ a = c) -> check a e = ROk tt e).
  { intros a O. apply (check_spec (a := a) H). unfold blocks. cbn [y_guts y_stack y_current]. destruct O as [->|[->|[->| ->]]]; rewrite ind_refl; lia. }
  rewrite !A by tauto. reflexivity.
Qed.
Lemma open_ok e f : heap e f -> exists g k s c e', open_ e = ROk ((s, c), mkLexer g (Some k) (Some (s, c))) e' /\ heap e' (fun x => blocks (mkLexer g (Some k) (Some (s, c))) x + f x) /\ same e e'.
Proof.
  intro H. destruct (alloc_spec H) as (_ & e1 & E1 & H1 & S1). set (g := e_next e) in *. destruct (alloc_spec H1) as (_ & e2 & E2 & H2 & S2). set (c := e_next e1) in *.
  destruct (alloc_spec H2) as (_ & e3 & E3 & H3 & S3). set (s := e_next e2) in *. destruct (alloc_spec H3) as (_ & e4 & E4 & H4 & S4). set (k := e_next e3) in *.
  exists g, k, s, c, e4.
  assert (HH : heap e4 (fun x => blocks (mkLexer g (Some k) (Some (s, c))) x + f x)) by (eapply heap_ext; [exact H4|]; intro x; unfold blocks; cbn [y_guts y_stack y_current]; lia).
  assert (C1 : check g e1 = ROk tt e1) by (apply (check_spec (a := g) H1); rewrite ind_refl; lia). assert (C3 : check g e3 = ROk tt e3) by (apply (check_spec (a := g) H3); rewrite ind_refl; lia).
  assert (C4 : check g e4 = ROk tt e4) by (apply (check_spec (a := g) H4); rewrite ind_refl; lia). assert (C5 : check k e4 = ROk tt e4) by (apply (check_spec (a := k) H4); rewrite ind_refl; lia).
  split; [|split; [exact HH|eapply same_trans; [exact S1|eapply same_trans; [exact S2|eapply same_trans; [exact S3|exact S4]]]]].
  pose proof (@alive_ok _ e4 f g k s c eq_refl HH) as AL. clearbody g c s k.
  unfold open_, lex_init_, scan_string_, ensure_buffer_stack, current_buffer, bind, ret. rewrite E1. cbn [y_guts y_stack y_current]. rewrite C1, E2, E3. cbn [y_guts y_stack y_current]. rewrite C3, E4. cbn [y_guts y_stack y_current]. rewrite C4, C5. cbn [snd]. rewrite AL. reflexivity.
Qed.
Lemma close_ok l g k s c : l = mkLexer g (Some k) (Some (s, c)) -> frees (close_ (s, c) l) (blocks l).
Proof.
  intros EL e f H. unfold close_. assert (AL : lexer_alive l e = ROk tt e) by (eapply alive_ok; eassumption). unfold bind at 1. rewrite AL. subst l.
  assert (F : frees (release c ;; release s ;; release k ;; release g) (blocks (mkLexer g (Some k) (Some (s, c))))).
  { eapply frees_ext; [apply frees_seq; [apply frees_release|apply frees_seq; [apply frees_release|apply frees_seq; [apply frees_release|apply frees_release]]]|]. intro x. unfold blocks. cbn [y_guts y_stack y_current]. lia. }
  destruct (F e f H) as (e' & E & H' & S'). exists e'. split; [|split; [exact H'|exact S']]. rewrite <- E. clear F E H' S' e'.
  assert (A : forall a, (a = g \/ a = k \/ a = s \/ a = c) -> check a e = ROk tt e).
  { intros a O. apply (check_spec (a := a) H). unfold blocks. cbn [y_guts y_stack y_current]. destruct O as [->|[->|[->| ->]]]; rewrite ind_refl; lia. }
  unfold delete_buffer, lex_destroy, current_buffer, bind, ret. cbn [y_guts y_stack y_current fst snd]. rewrite !A by tauto. rewrite N.eqb_refl.
  destruct (release_spec (e := e) (f := fun x => blocks (mkLexer g (Some k) (Some (s, c))) x + f x) (a := c) H) as (e1 & R1 & G1 & _); [unfold blocks; cbn [y_guts y_stack y_current]; rewrite ind_refl; lia|].
  assert (H1 : heap e1 (fun x => ind g x + ind k x + ind s x + f x)) by (apply G1; intro x; unfold blocks; cbn [y_guts y_stack y_current]; lia). rewrite R1.
  destruct (release_spec (a := s) H1) as (e2 & R2 & G2 & _); [rewrite ind_refl; lia|]. assert (H2 : heap e2 (fun x => ind g x + ind k x + f x)) by (apply G2; intro x; lia). rewrite R2. cbn [y_guts y_stack y_current].
  assert (A2 : forall a, (a = g \/ a = k) -> check a e2 = ROk tt e2). { intros a O. apply (check_spec (a := a) H2). destruct O as [->| ->]; rewrite ind_refl; lia. }
  rewrite !A2 by tauto. cbn [y_guts y_stack y_current]. reflexivity.
Qed.

(** ** parse *)
Lemma parse_full_eq buf0 sql e : parse_full buf0 sql e =
  match open_ e with
  | RUB u => PUB u
  | RErr _ => PUB UTable
  | ROk (b, l) e1 =>
    match scan_all buf0 sql with
    | None => PUB UTable
    | Some ts => match yyparse ts e1 with PRet r e2 => match close_ b l (set_valid (r =? 0)%Z e2) with ROk _ e3 => PRet r e3 | RErr _ => PUB UTable | RUB u => PUB u end | o => o end
    end
  end.
Proof. reflexivity. Qed.
(** The scanner's memory around a parse of Api.v: nothing else changes. *)
Lemma full_parse buf0 sql e0 B : (Z.of_nat (List.length (c_string sql)) + 2 <= INT_MAX)%Z -> e_msg e0 = VNull -> e_params e0 = [] -> heap e0 (fun x => cas x (e_stmts e0) + B x) ->
  exists l e1, same e0 e1 /\ heap e1 (fun x => cas x (e_stmts e1) + (blocks l x + B x)) /\
    match parse buf0 sql e1 with
    | PRet r e2 => exists e3, parse_full buf0 sql e0 = PRet r e3 /\ same e2 e3 /\ forall F, heap e2 (fun x => F x + (blocks l x + B x)) -> heap e3 (fun x => F x + B x)
    | PUB u => parse_full buf0 sql e0 = PUB u
    | PFuel => False
    end.
Proof.
  intros L M P H. destruct (open_ok H) as (g & k & s & c & e1 & E & H1 & S1). set (l := mkLexer g (Some k) (Some (s, c))) in *. exists l, e1. split; [exact S1|].
  assert (ST : e_stmts e1 = e_stmts e0) by (destruct S1 as [[S1 _] _]; exact S1).
  assert (H2 : heap e1 (fun x => cas x (e_stmts e1) + (blocks l x + B x))) by (rewrite ST; eapply heap_ext; [exact H1|]; intro x; cbn beta; lia). split; [exact H2|].
  rewrite parse_full_eq, E. rewrite (@scan_all_ok buf0 sql L). unfold parse. destruct (tokens_total sql) as (ts & T & EE & TO & LB). rewrite LB.
  assert (M1 : e_msg e1 = VNull) by (destruct S1 as [_ (_ & S1 & _)]; congruence). assert (P1 : e_params e1 = []) by (destruct S1 as [(_ & S1 & _) _]; congruence).
  pose proof (@parse_inv buf0 sql ts e1 _ T M1 P1 H2) as O. unfold parse in O. rewrite LB in O. destruct (yyparse ts e1) as [r e2|u|]; [|reflexivity|exact O]. cbn [parse_outcome] in O.
  assert (X : exists F0, heap (set_valid (r =? 0)%Z e2) (fun x => blocks l x + (F0 x + B x))).
  { destruct O as [(_ & _ & e4 & EQ & (tl & semi & t & lost & _ & _ & _ & _ & _ & HH & _))|(_ & _ & e4 & EQ & (_ & _ & lost & HH & _))].
    - exists (fun x => cas x (e_stmts e4) + lost x). rewrite EQ. apply (@heap_env e4); [reflexivity|reflexivity|]. eapply heap_ext; [exact HH|]. intro x. cbn beta. lia.
    - exists (fun x => ca x (e_msg e4) + cas x (e_stmts e4) + lost x). rewrite EQ. apply (@heap_env e4); [reflexivity|reflexivity|]. eapply heap_ext; [exact HH|]. intro x. cbn beta. lia. }
  destruct X as (F0 & X). destruct (@close_ok l g k s c eq_refl (set_valid (r =? 0)%Z e2) (fun x => F0 x + B x) X) as (e3 & E3 & H3 & S3).
  exists e3. rewrite E3. split; [reflexivity|]. split; [exact S3|]. intros F HF. eapply heap_ext; [exact H3|]. intro x. pose proof (heap_live X x) as A1. pose proof (heap_live HF x) as A2. cbn beta in A1, A2. rewrite A1 in A2. clear -A2. generalize dependent (blocks l x). intros; lia.
Qed.
Lemma set_valid_id e b : e_valid e = b -> e = set_valid b e. Proof. intros <-. destruct e; reflexivity. Qed.
Lemma set_valid_twice e b c : e_valid e = b -> e = set_valid b (set_valid c e). Proof. intros <-. destruct e; reflexivity. Qed.
(** Everything proved about [parse] in an arbitrary machine holds of [parse_full]. *)
Theorem parse_full_inv buf0 sql ts e0 B : (Z.of_nat (List.length (c_string sql)) + 2 <= INT_MAX)%Z -> tokens sql ts -> e_msg e0 = VNull -> e_params e0 = [] ->
  heap e0 (fun x => cas x (e_stmts e0) + B x) -> parse_outcome ts e0 B (parse_full buf0 sql e0).
Proof.
  intros L T M P H. destruct (@full_parse buf0 sql e0 B L M P H) as (l & e1 & S1 & H1 & O). destruct S1 as [(Q1 & Q2 & Q3 & Q4 & Q5) (Q6 & Q7 & Q8 & Q9)].
  pose proof (@parse_inv buf0 sql ts e1 _ T (eq_trans Q7 M) (eq_trans Q2 P) H1) as I. destruct (parse buf0 sql e1) as [r e2|u|]; [|rewrite O; exact I|destruct O].
  destruct O as (e3 & E3 & ((R1 & R2 & R3 & R4 & R5) & (R6 & R7 & R8 & R9)) & F). rewrite E3. cbn [parse_outcome] in I |- *.
  destruct I as [(-> & V & e4 & EQ & (tl & semi & t & lost & D & Y & K & (W1 & W2 & W3 & W4) & [RS RP] & HH & LF))|(NR & V & e4 & EQ & (EA & ST & lost & HH & LF))]; [left|right].
  - subst e2. cbn [set_valid e_valid e_stmts e_msg e_line e_col e_params e_plist e_loc e_lpos] in *. split; [reflexivity|]. split; [congruence|].
    exists (set_valid (e_valid e0) e3). split; [apply set_valid_twice; congruence|]. exists tl, semi, t, lost. split; [exact D|]. split; [exact Y|]. split; [exact K|].
    split; [cbn [set_valid e_valid e_msg e_line e_col]; repeat split; cbn; congruence|]. split; [|split; [|exact LF]].
    + split; cbn [set_valid e_stmts e_plist e_params]; rewrite ?R1, ?R2, ?R3, <- ?Q1, <- ?Q2; assumption.
    + cbn [set_valid e_stmts]. apply (@heap_env e3); [reflexivity|reflexivity|]. rewrite R1. apply (F (fun x => cas x (e_stmts e4) + lost x)). apply (@heap_env e4); [reflexivity|reflexivity|exact HH].
  - subst e2. cbn [set_valid e_valid e_stmts e_msg e_line e_col e_params e_plist e_loc e_lpos] in *. split; [exact NR|]. split; [congruence|].
    exists e3. split; [apply set_valid_id; congruence|]. split; [|split].
    + destruct EA as (A1 & A2 & A3). unfold err_at. rewrite R7, R8, R9. split; [congruence|]. split; assumption.
    + rewrite R1, R2. destruct ST as [[ST1 ST2]|(tl & semi & rest & D & Y & [RS RP])]; [left; split; congruence|right]. exists tl, semi, rest. split; [exact D|]. split; [exact Y|].
      split; rewrite ?R1, ?R2, ?R3, <- ?Q1, <- ?Q2; assumption.
    + exists lost. split; [|exact LF]. rewrite R7, R1. apply (F (fun x => ca x (e_msg e4) + cas x (e_stmts e4) + lost x)). apply (@heap_env e4); [reflexivity|reflexivity|exact HH].
Qed.

(** ** tokenize *)
(** Codes and values do not depend on positions. *)
Lemma run_rule_pos r t st p : 
  match run_rule r t st, run_rule r t (mkLex (lx_start st) (lx_buf st) p) with
  | Skip a, Skip b => lx_start a = lx_start b /\ lx_buf a = lx_buf b
  | Ret c v a, Ret c' v' b => c = c' /\ v = v' /\ lx_start a = lx_start b /\ lx_buf a = lx_buf b
  | _, _ => False
  end.
Proof.
  unfold run_rule. cbn [lx_start lx_buf lx_pos]. repeat match goal with |- context [if ?b then _ else _] => destruct b end; cbn [lx_start lx_buf]; auto.
  - destruct (strtoll0 t); cbn [lx_start lx_buf]; auto.
  - destruct (token_rule r); cbn [lx_start lx_buf]; auto.
Qed.
Lemma lex_from_pos : forall a rest, is_start (lx_start a) -> ~ In NUL rest -> forall b len0 len1, lx_start a = lx_start b -> lx_buf a = lx_buf b ->
  option_map (map core) (lex_from a len0 rest) = option_map (map core) (lex_from b len1 rest).
Proof.
  intros a rest S N. refine (@lex_ind (fun a rest => forall b len0 len1, lx_start a = lx_start b -> lx_buf a = lx_buf b -> option_map (map core) (lex_from a len0 rest) = option_map (map core) (lex_from b len1 rest)) _ a rest S N).
  clear. intros a rest S N IH b len0 len1 E1 E2. assert (Sb : is_start (lx_start b)) by (rewrite <- E1; exact S).
  rewrite (lex_from_eq len0 S N), (lex_from_eq len1 Sb N).
  destruct rest as [|c0 rest0]; [unfold lex_step; rewrite (lex_match_eof S), (lex_match_eof Sb); reflexivity|].
  assert (NE : c0 :: rest0 <> []) by discriminate. destruct (lex_match_best S N NE) as (r & n & E & B & L & R). remember (c0 :: rest0) as rest.
  unfold lex_step. rewrite <- E1, E. pose proof (run_rule_pos r (firstn n rest) a (lx_pos b)) as RB. pose proof (run_rule_ok r (firstn n rest) S) as OK.
  assert (EB : mkLex (lx_start a) (lx_buf a) (lx_pos b) = b) by (clear -E1 E2; destruct b as [b1 b2 b3], a as [a1 a2 a3]; cbn [lx_start lx_buf lx_pos] in *; congruence). rewrite EB in RB.
  destruct (run_rule r (firstn n rest) a) as [a'|c v a'], (run_rule r (firstn n rest) b) as [b'|c' v' b']; try contradiction.
  - apply IH; auto; [apply OK|apply RB|apply RB].
  - destruct RB as (<- & <- & F1 & F2). cbn zeta. destruct (c <=? 0)%Z; [reflexivity|].
    pose proof (@IH a' n L (proj1 OK) NE b' (slen (lx_pos a')) (slen (lx_pos b')) F1 F2) as Q.
    destruct (lex_from a' (slen (lx_pos a')) (skipn n rest)) as [ta|], (lex_from b' (slen (lx_pos b')) (skipn n rest)) as [tb|]; cbn [option_map] in Q; try discriminate Q; [|reflexivity].
    cbn [obind option_map map]. injection Q as Q. unfold core at 1 3. cbn [t_code t_val]. now rewrite Q.
Qed.
(** The calls of hsql_lex in tokenize: the codes and values of the parser's tokens. *)
Lemma tokenize_calls buf0 sql ts yylloc : (Z.of_nat (List.length (c_string sql)) + 2 <= INT_MAX)%Z -> tokens sql ts ->
  exists ts', (g <-o scan_string sql ; scan_tokens (S (List.length (c_string sql))) g buf0 yylloc) = Some ts' /\ map core ts' = map core ts.
Proof.
  intros L T. destruct (@scan_string_ok sql L) as (g & E & A & S & M). rewrite E. cbn [obind].
  assert (IS : is_start (g_start g)) by (rewrite S; left; reflexivity).
  rewrite (@scan_tokens_ok (Datatypes.S (List.length (c_string sql))) g buf0 yylloc [] (c_string sql) A IS); [|lia|lia].
  destruct (tokens_total sql) as (ts2 & T2 & _ & _ & LB). unfold tokens in T, T2. rewrite T in T2. injection T2 as <-. specialize (LB buf0). unfold lex_all in LB.
  pose proof (@lex_from_pos (mkLex (g_start g) buf0 yylloc) (c_string sql) IS (@c_string_NUL sql) (lex_init buf0) (slen yylloc) 0%Z S eq_refl) as Q.
  unfold lex_from at 2 in Q. rewrite LB in Q. destruct (lex_from (mkLex (g_start g) buf0 yylloc) (slen yylloc) (c_string sql)) as [ts'|]; [|discriminate Q]. cbn [option_map] in Q. injection Q as Q. eauto.
Qed.
(** Which tokens carry a string. *)
Definition texty (c : Z) : bool := (c =? TOK_IDENTIFIER)%Z || (c =? TOK_STRING)%Z.
Lemma texty_type c : (0 <= c < 1000)%Z -> (texty c = true <-> symty (sym_of_code c) = TStr).
Proof.
  intro R. assert (A : forallb (fun z => Bool.eqb (texty z) (match symty (sym_of_code z) with TStr => true | _ => false end)) (TableCheck.zrange 1000 0) = true) by (vm_compute; reflexivity).
  rewrite forallb_forall in A. assert (IZ : In c (TableCheck.zrange 1000 0)) by (apply TableCheck.zrange_In; lia). specialize (A _ IZ). apply Bool.eqb_prop in A. rewrite A. destruct (symty (sym_of_code c)); split; congruence.
Qed.
Lemma texty_value t : tok_ok t -> (0 <= t_code t < 1000)%Z -> if texty (t_code t) then exists s, t_val t = TVStr s else forall s, t_val t <> TVStr s.
Proof.
  intros T R. pose proof (@texty_type (t_code t) R) as X. unfold tok_ok in T. change (sym_of_code (t_code t)) with (sym_of t) in X. destruct (texty (t_code t)).
  - destruct X as [X _]. rewrite (X eq_refl) in T. destruct (t_val t); try destruct T. eauto.
  - intros s E. rewrite E in T. destruct (symty (sym_of t)) eqn:Y; try destruct T. destruct X as [_ X]. discriminate (X eq_refl).
Qed.
Lemma value_ok v e f : heap e f -> exists x e', token_value v e = ROk x e' /\ same e e' /\
  match v with TVStr _ => exists a s, x = VStr a s /\ heap e' (fun y => ind a y + f y) | _ => heap e' f end.
Proof.
  intro H. destruct v as [|s|z|t]; cbn [token_value]; try (eexists _, e; split; [reflexivity|]; split; [apply same_refl|exact H]).
  destruct (alloc_spec H) as (_ & e' & E & H' & S). exists (VStr (e_next e) s), e'. unfold snew, bind, ret. rewrite E. split; [reflexivity|]. split; [exact S|]. eauto.
Qed.
Lemma int16_small c : (0 <= c < 1000)%Z -> to_int16 c = c.
Proof. intro R. unfold to_int16. rewrite Z.mod_small by lia. destruct (c <? 32768)%Z eqn:E; lia. Qed.
Lemma loop_ok : forall ts c out, (0 < c < 1000)%Z -> Forall (fun t => tok_ok t) ts -> (exists ts' t, ts = ts' ++ [t] /\ t_code t = 0%Z /\ Forall (fun t => (0 < t_code t < 1000)%Z) ts') ->
  forall e f, heap e f -> exists e', tokenize_loop c ts out e = ROk (out ++ c :: token_codes ts) e' /\ heap e' f /\ same e e'.
Proof.
  induction ts as [|t ts IH]; intros c out R FA (ts' & tn & E & TN & FC) e f H; [destruct ts'; discriminate E|].
  inversion FA as [|? ? FT FA']; subst. assert (C0 : (c =? 0)%Z = false) by lia.
  assert (RT : (0 <= t_code t < 1000)%Z) by (destruct ts' as [|t' ts']; injection E as -> E; [lia|inversion FC; lia]).
  cbn [tokenize_loop]. rewrite C0. unfold bind at 1. destruct (value_ok (t_val t) H) as (x & e1 & E1 & S1 & H1). rewrite E1. cbv zeta. rewrite (@int16_small (t_code t) RT).
  fold (texty (t_code t)). pose proof (@texty_value t FT RT) as TV.
  assert (X : exists e2, (if texty (t_code t) then free_ x else ret tt) e1 = ROk tt e2 /\ heap e2 f /\ same e1 e2).
  { destruct (texty (t_code t)).
    - destruct TV as (s & EV). rewrite EV in H1. destruct H1 as (a & s' & -> & H1). cbn [free_]. exact (@frees_release a e1 f H1).
    - exists e1. split; [reflexivity|]. split; [|apply same_refl]. destruct (t_val t); try exact H1. destruct (TV s eq_refl). }
  destruct X as (e2 & E2 & H2 & S2). unfold bind. rewrite E2. destruct ts' as [|t' ts'].
  - injection E as -> ->. rewrite TN. cbn [tokenize_loop Z.eqb token_codes]. exists e2. split; [unfold ret; rewrite TN; reflexivity|]. split; [exact H2|]. eapply same_trans; eassumption.
  - injection E as -> E. inversion FC as [|? ? RC FC']; subst. destruct (IH (t_code t') (out ++ [c]) RC FA') with (e := e2) (f := f) as (e3 & E3 & H3 & S3); [exists ts', tn; auto|exact H2|].
    exists e3. split; [|split; [exact H3|eapply same_trans; [exact S1|eapply same_trans; eassumption]]]. rewrite E3. f_equal. cbn [token_codes]. rewrite (@int16_small (t_code t') RT). replace (t_code t' =? 0)%Z with false by lia. rewrite <- app_assoc. reflexivity.
Qed.
