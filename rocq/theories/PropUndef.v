(** Property C57: exactly where a parse leaves defined behaviour.
    Vocabulary: [begins l] (Viable.v): some sentence of the grammar, followed by the end of input, begins with the tokens [l].
    [huge_number s] (PropParse.v): [s] begins, after blanks and a sign, with a number that does not fit into int.
    [core t]: the kind and the value of a token, without its position. *)
From Verif Require Import Script PropParse PropError Overflow.
From Coq Require Import ZifyBool ZifyNat ZifyN.
Local Open Scope nat_scope.

(** INTERVAL and a string whose number does not fit into int. *)
Definition too_long_interval (k t : token) : Prop :=
  t_code k = TOK_INTERVAL /\ t_code t = TOK_STRING /\ exists s, t_val t = TVStr s /\ huge_number s.
Lemma code_by_sym sql ts t c X : tokens sql ts -> In t ts -> sym_of t = X -> forallb (fun z => (z =? c)%Z || negb (N.eqb (sym_of_code z) X)) (TableCheck.zrange 1000 0) = true -> t_code t = c.
Proof.
  intros T I ST A. destruct (lex_all_codes T) as (ts' & tn & -> & TN & _ & F). unfold sym_of in ST. rewrite forallb_forall in A. assert (R : (0 <= t_code t < 1000)%Z).
  { apply in_app_iff in I as [I|[<-|[]]]; [rewrite Forall_forall in F; specialize (F _ I); lia|lia]. }
  assert (IZ : In (t_code t) (TableCheck.zrange 1000 0)) by (apply TableCheck.zrange_In; lia). specialize (A _ IZ). rewrite ST, N.eqb_refl in A. cbn [negb] in A. rewrite orb_false_r in A. lia.
Qed.
Lemma begins_stack ts a : asteps (astart ts) a -> a_stk a <> [] -> begins (yields (atrees a)).
Proof.
  intros H NE. pose proof (ainv_runs (asteps_runs H) (ainv_start ts)) as [C _ _]. pose proof (chain_path C) as HP. destruct (a_stk a) as [|[s t] l] eqn:ES; [contradiction|].
  pose proof (path_cons HP) as RG. cbn [fst] in RG. pose proof (valid_state RG) as V. unfold state_valid in V. apply andb_prop in V as [_ V].
  assert (S0 : s <> 0%Z). { cbn [rev] in C. apply chain_app in C as [_ C]. cbn [chain] in C. destruct C as [(_ & C & _) _]. exact C. }
  destruct (Z.eqb_spec s 0); [contradiction|]. apply andb_prop in V as [_ V]. apply existsb_exists in V as (x & I & _).
  assert (LS : lastst 0 (rev ((s, t) :: l)) = s) by (rewrite lastst_atop; reflexivity).
  rewrite <- LS in I. destruct (fits_chain C (ts := []) fits_start I) as (lhs & rhs & P & W). cbn [app] in W.
  destruct (@rhs_produces _ _ _ (N.to_nat (snd (fst x))) P) as (us & DU). specialize (W us DU). unfold atrees. rewrite ES, <- map_rev. exact (begins_app W).
Qed.

(** If a parse is undefined, the cause is sscanf's %d in an interval literal: the tokens contain INTERVAL, directly followed by a string
    with a number that does not fit, and up to there they begin a sentence. *)
Theorem C57_only_there : forall buf0 sql ts u, tokens sql ts -> parse buf0 sql fresh_env = PUB u ->
  u = UScanf /\ exists before k t after, ts = before ++ k :: t :: after /\ too_long_interval k t /\ begins (before ++ [k; t]).
Proof.
  intros buf0 sql ts u T P. destruct (tokens_end T) as (EE & TO & LB). unfold parse in P. rewrite LB in P. destruct (yyparse ts fresh_env) as [r1 e1|u1|] eqn:Y; try discriminate P. injection P as ->.
  destruct (@yyparse_explained ts fresh_env (fun _ => 0) TO eq_refl eq_refl EE heap_fresh) as (a & A & X). rewrite Y in X. destruct X as [[[-> _] (a' & trees & r & k & t & tp & s & AS & AT & SK & ST & TV & CASE)] _]. split; [reflexivity|].
  assert (AA : asteps (astart ts) a') by (eapply asteps_trans; [exact A|now apply asteps_one]). pose proof (ainv_runs (asteps_runs AA) (ainv_start ts)) as [_ TX _].
  assert (NE : a_stk a' <> []) by (intro E; unfold atrees in AT; rewrite E in AT; destruct trees; discriminate AT). pose proof (begins_stack _ _ AA NE) as BG.
  assert (YE : yields (atrees a') = (yields trees ++ [k; t]) ++ yields tp) by (rewrite AT, yields_app, <- app_assoc; cbn [yields flat_map yield app]; now rewrite app_nil_r).
  exists (yields trees), k, t, (yields tp ++ pend a'). assert (TS : ts = yields trees ++ k :: t :: yields tp ++ pend a') by (rewrite <- TX, YE, <- !app_assoc; reflexivity).
  split; [exact TS|]. split; [|rewrite YE in BG; exact (begins_app BG)].
  split; [apply (code_by_sym sql ts k _ S_INTERVAL T); [rewrite TS; apply in_elt|exact SK|vm_compute; reflexivity]|].
  split; [apply (code_by_sym sql ts t _ S_STRING T); [rewrite TS; apply in_app_iff; right; right; now left|exact ST|vm_compute; reflexivity]|].
  exists s. split; [exact TV|]. apply scan_SUB. destruct CASE as [[_ CASE]|[_ CASE]]; auto.
Qed.
(** So a text without such a pair of tokens is parsed without undefined behaviour, whatever other strings it contains. *)
Corollary C57_returns : forall buf0 sql ts, tokens sql ts -> (forall before k t after, ts = before ++ k :: t :: after -> ~ too_long_interval k t) ->
  exists r e, parse buf0 sql fresh_env = PRet r e.
Proof.
  intros buf0 sql ts T H. pose proof (parse_fresh buf0 T) as O. destruct (parse buf0 sql fresh_env) as [r e|u|] eqn:P; [eauto| |destruct O].
  destruct (C57_only_there buf0 sql ts u T P) as (_ & before & k & t & after & E & L & _). destruct (H _ _ _ _ E L).
Qed.
(** And wherever such a literal can be reached, the parse is undefined: [sql'] is any valid text that has the same tokens up to INTERVAL,
    some string after it, and then a token of the same kind.  Whatever follows in [sql] is never looked at. *)
Theorem C57_always_there : forall sql before k t n after sql' before' k' t' n' after' buf' r e,
  tokens sql (before ++ k :: t :: n :: after) -> too_long_interval k t ->
  tokens sql' (before' ++ k' :: t' :: n' :: after') -> parse buf' sql' fresh_env = PRet r e -> e_valid e = true ->
  map core (before' ++ [k']) = map core (before ++ [k]) -> t_code t' = TOK_STRING -> t_code n' = t_code n ->
  forall buf0, parse buf0 sql fresh_env = PUB UScanf.
Proof.
  intros sql before k t n after sql' before' k' t' n' after' buf' r e T (CK & CT & s & TV & HU) T' P V EC CT' CN buf0.
  destruct (tokens_end T') as (EE' & TO' & LB'). unfold parse in P. rewrite LB' in P. destruct (yyparse _ fresh_env) as [r1 e1|u1|] eqn:Y; try discriminate P. injection P as <- <-. cbn [set_valid e_valid] in V. assert (r1 = 0%Z) by lia. subst r1.
  destruct (@yyparse_recognises _ fresh_env (fun _ => 0) TO' eq_refl eq_refl EE' heap_fresh e1 Y) as (tl & semi & eof & RC & SM & _).
  destruct (proj1 (recognises_iff (Node 2 [tl; semi]) eof EE') RC) as (_ & YE & _). destruct RC as (c & C1 & C2 & C3).
  destruct (@dooms before k t n after before' k' t' n' after' s c) as (x & X1 & X2 & X3); try assumption.
  - rewrite C3. cbn [sems]. destruct (sem (Node 2 [tl; semi]) 0) as [[]|]; [discriminate|contradiction].
  - rewrite C3. cbn [yields flat_map]. rewrite app_nil_r. change (yield (Leaf eof)) with [eof]. rewrite YE, app_length. cbn [List.length]. lia.
  - symmetry. exact EC.
  - rewrite !map_app in EC. cbn [map] in EC. apply app_inj_tail in EC as [_ EC]. unfold core in EC. injection EC as EC _. unfold sym_of. rewrite EC, CK. vm_compute. reflexivity.
  - unfold sym_of. rewrite CT'. vm_compute. reflexivity.
  - unfold sym_of. rewrite CT. vm_compute. reflexivity.
  - unfold sym_of. now rewrite CN.
  - destruct (tokens_end T) as (EE & TO & LB). unfold parse. rewrite LB. rewrite (@yyparse_doomed _ fresh_env (fun _ => 0) TO eq_refl eq_refl x EE heap_fresh X1 X2 X3). reflexivity.
Qed.
(** The text is no sentence after the literal; it is undefined all the same. *)
Example C57_example : forall buf0, parse buf0 (la "SELECT a FROM t WHERE b < INTERVAL '99999999999' DAY ) ) zzz '") fresh_env = PUB UScanf.
Proof.
  assert (T : exists before k t n after, tokens (la "SELECT a FROM t WHERE b < INTERVAL '99999999999' DAY ) ) zzz '") (before ++ k :: t :: n :: after) /\ List.length before = 7 /\ t_val t = TVStr (la "99999999999") /\ t_code t = TOK_STRING /\ t_code k = TOK_INTERVAL /\ t_code n = TOK_DAY /\
    map core (before ++ [k]) = [(TOK_SELECT, TVNone); (TOK_IDENTIFIER, TVStr (la "a")); (TOK_FROM, TVNone); (TOK_IDENTIFIER, TVStr (la "t")); (TOK_WHERE, TVNone); (TOK_IDENTIFIER, TVStr (la "b")); (60%Z, TVNone); (TOK_INTERVAL, TVNone)]).
  { eexists [_; _; _; _; _; _; _], _, _, _, _. split; [vm_compute; reflexivity|]. vm_compute. repeat split. }
  assert (T' : exists before k t n after, tokens (la "SELECT a FROM t WHERE b < INTERVAL '1' DAY;") (before ++ k :: t :: n :: after) /\ t_code t = TOK_STRING /\ t_code n = TOK_DAY /\
    map core (before ++ [k]) = [(TOK_SELECT, TVNone); (TOK_IDENTIFIER, TVStr (la "a")); (TOK_FROM, TVNone); (TOK_IDENTIFIER, TVStr (la "t")); (TOK_WHERE, TVNone); (TOK_IDENTIFIER, TVStr (la "b")); (60%Z, TVNone); (TOK_INTERVAL, TVNone)]).
  { eexists [_; _; _; _; _; _; _], _, _, _, _. split; [vm_compute; reflexivity|]. vm_compute. repeat split. }
  assert (P : exists r e, parse [] (la "SELECT a FROM t WHERE b < INTERVAL '1' DAY;") fresh_env = PRet r e /\ e_valid e = true) by (eexists _, _; split; [vm_compute; reflexivity|reflexivity]).
  destruct T as (before & k & t & n & after & T & LB & TV & CT & CK & CN & EC). destruct T' as (before' & k' & t' & n' & after' & T' & CT' & CN' & EC'). destruct P as (r & e & P & V).
  refine (C57_always_there _ _ _ _ _ _ _ _ _ _ _ _ _ _ _ T _ T' P V _ CT' _); [|congruence|congruence].
  split; [exact CK|]. split; [exact CT|]. eexists. split; [exact TV|]. apply huge_scan. vm_compute. auto.
Qed.
