(** Properties C21 and C38: what a failed parse depends on, and what its message says.

    Vocabulary: [begins l] (Viable.v): some sentence of the grammar, followed by the end of input, begins with the tokens [l].
    [sym_of t]: the kind of token [t]; [shown c]: how messages call the token with code [c] (Keywords.v). *)
From Verif Require Import Base TokenCodes Keywords PropLex Meaning ParseProof Viable Prefix Frame PropParse.
From Coq Require Import ZifyBool ZifyNat ZifyN.
Local Open Scope nat_scope.
Set Implicit Arguments.
Unset Strict Implicit.

(** ** Specification of the message *)
(** "syntax error, unexpected U" or "syntax error, unexpected U, expecting A or B". *)
Definition list_or (l : list bytes) : bytes := match l with [] => [] | x :: l' => x ++ flat_map (fun y => la " or " ++ y) l' end.
Definition message_text (unexpected : bytes) (expecting : list bytes) : bytes :=
  la "syntax error, unexpected " ++ unexpected ++ match expecting with [] => [] | _ => la ", expecting " ++ list_or expecting end.
(** A semantic check failed: what was read begins with trees of the grammar that have no value. *)
Definition check_failed (seen : list token) : Prop := exists Xs trees rest, derives_list Xs trees /\ seen = yields trees ++ rest /\ sems trees 0 = None.
(** The token [t], read after [before], was not expected, and message [m] says so. *)
Record unexpected_token (before : list token) (t : token) (m : bytes) : Prop := {
  ut_text : exists kinds : list Z, List.length kinds <= 4 /\ m = message_text (shown (t_code t)) (map shown kinds) /\
    (forall c, In c kinds -> shown c <> la "$undefined") /\
    (forall k, In (t_code k) kinds -> begins (before ++ [k])) /\
    (* nothing is listed only if five different tokens, or more, could have been read *)
    (kinds = [] -> exists others : list Z, 5 <= List.length others /\ NoDup others /\ forall k, In (t_code k) others -> begins (before ++ [k]));
  ut_sound : forall T eof rest, derives S_input T -> respects T 0 = true -> sym_of eof = 0%N -> map sym_of (yield T ++ [eof]) <> map sym_of (before ++ [t]) ++ rest }.

(** ** Proof *)
Lemma join_or_list l : join_or l = list_or l.
Proof.
  unfold list_or. destruct l as [|x l]; [reflexivity|]. revert x. induction l as [|y l IH]; intro x; [cbn [join_or flat_map]; now rewrite app_nil_r|].
  change (join_or (x :: y :: l)) with (x ++ la " or " ++ join_or (y :: l)). rewrite IH. cbn [flat_map]. now rewrite <- !app_assoc.
Qed.
Lemma tokens_end sql ts : tokens sql ts -> ends_eof ts /\ Forall tok_ok ts /\ forall buf0, lex_all buf0 sql = Some ts.
Proof. intro T. destruct (tokens_total sql) as (ts' & T' & A & B & C). unfold tokens in *. rewrite T in T'. injection T' as <-. auto. Qed.
Lemma valid_In s : (0 <= s < 656)%Z -> In s all_states.
Proof. intro. apply zrange_In. lia. Qed.
Lemma expected_listed s x : (0 <= s < 656)%Z -> In x (listed s) -> (exists a, (0 <= a < 199)%Z /\ decide s (Some a) = Some DError) ->
  (0 <= x < 199)%Z /\ (exists s', decide s (Some x) = Some (DShift s')) /\ exists c, code_for (Z.to_N x) = Some c.
Proof.
  intros R I (a & RA & DA). pose proof (proj1 (forallb_forall _ _) listed_checked s) as C. specialize (C (valid_In R)). unfold listed_ok in C.
  destruct (listed s) as [|y l] eqn:EL; [destruct I|]. assert (ER : errs s = true).
  { unfold errs. apply existsb_exists. exists a. split; [apply zrange_In; lia|]. now rewrite DA. }
  rewrite ER in C. pose proof (proj1 (forallb_forall _ _) C x I) as X. cbn beta in X. destruct (Z.leb_spec 0 x), (Z.ltb_spec x 199); cbn [andb] in X; try discriminate X.
  split; [lia|]. destruct (decide s (Some x)) as [[|s'|r|]|]; try discriminate X. destruct (code_for (Z.to_N x)) as [c|]; [|discriminate X]. eauto.
Qed.
(** Where the message lists nothing, at least five tokens can be shifted. *)
Definition shiftable (s : Z) : list Z := filter (fun x => match decide s (Some x), code_for (Z.to_N x) with Some (DShift _), Some _ => true | _, _ => false end) all_tokens.
Definition silent_ok (s : Z) : bool := match listed s with [] => if errs s then 5 <=? List.length (shiftable s) else true | _ => true end.
Lemma silent_checked : forallb silent_ok all_states = true.
Proof. vm_cast_no_check (eq_refl true). Qed.
Lemma zrange_within : forall n a x, In x (zrange n a) -> (a <= x < a + Z.of_nat n)%Z.
Proof. induction n as [|n IH]; intros a x I; [destruct I|]. cbn [zrange] in I. destruct I as [<-|I]; [lia|]. apply IH in I. lia. Qed.
Lemma zrange_once : forall n a, NoDup (zrange n a).
Proof. induction n as [|n IH]; intro a; cbn [zrange]; constructor; [|apply IH]. intro I. apply zrange_within in I. lia. Qed.
Lemma shiftable_In s x : In x (shiftable s) -> (0 <= x < 199)%Z /\ (exists s', decide s (Some x) = Some (DShift s')) /\ exists c, code_for (Z.to_N x) = Some c.
Proof.
  unfold shiftable. intro H. apply filter_In in H as [I H]. apply zrange_within in I. split; [lia|]. destruct (decide s (Some x)) as [[|s'|r|]|]; try discriminate H. destruct (code_for (Z.to_N x)) as [c|]; [|discriminate H]. eauto.
Qed.
(** The parser's table of names agrees with the specification. *)
Lemma name_shown c : tok_name (Z.of_N (sym_of_code c)) = shown c.
Proof.
  unfold sym_of_code, shown. destruct (Z.leb_spec c 0) as [L|L]; [reflexivity|]. destruct (Z.leb_spec c 436) as [L2|L2].
  - assert (A : forallb (fun c => bytes_eqb (tok_name (Z.of_N match yytranslate_of c with Some t => Z.to_N t | None => 2%N end))
        match lookup_name c keywords with Some k => k | None => match lookup_name c named_tokens with Some k => k | None => match find (fun x => (bz x =? c)%Z) punctuation with Some x => la "'" ++ [x] ++ la "'" | None => la "$undefined" end end end) (zrange 436 1) = true) by (vm_compute; reflexivity).
    rewrite forallb_forall in A. specialize (A c). apply PropLex.bytes_eqb_eq, A, zrange_In. lia.
  - unfold yytranslate_of. replace ((0 <=? c)%Z && (c <=? YYMAXUTOK)%Z) with false by (symmetry; apply andb_false_iff; right; apply Z.leb_gt; exact L2).
    assert (F : forall l, forallb (fun p : bytes * Z => (snd p <=? 436)%Z) l = true -> lookup_name c l = None).
    { intros l H. unfold lookup_name. destruct (find _ l) as [q|] eqn:E; [|reflexivity]. apply find_some in E as [I E]. rewrite forallb_forall in H. specialize (H q I). lia. }
    rewrite !F by (vm_compute; reflexivity). destruct (find _ punctuation) as [x|] eqn:E; [|reflexivity]. apply find_some in E as [_ E]. pose proof (bz_range x). lia.
Qed.
Lemma named_listed y : (0 <= y < 199)%Z -> forall s s', (0 <= s < 656)%Z -> decide s (Some y) = Some (DShift s') -> tok_name y <> la "$undefined".
Proof.
  intros Y s s' R D E. assert (A : forallb (fun y => if (y =? 2)%Z then true else negb (bytes_eqb (tok_name y) (la "$undefined"))) (zrange 199 0) = true) by (vm_compute; reflexivity).
  rewrite forallb_forall in A. specialize (A y). destruct (Z.eqb_spec y 2) as [->|N]; [|rewrite E in A; discriminate A; apply zrange_In; lia].
  assert (B : forallb (fun s => match decide s (Some 2%Z) with Some (DShift _) => false | _ => true end) all_states = true) by (vm_compute; reflexivity).
  rewrite forallb_forall in B. specialize (B s (valid_In R)). rewrite D in B. discriminate B.
Qed.
Definition code_listed (x : Z) : Z := match code_for (Z.to_N x) with Some c => c | None => 0%Z end.
Lemma atop_range ts a : asteps (astart ts) a -> (0 <= atop (a_stk a) < 656)%Z.
Proof.
  intro H. pose proof (ainv_runs (asteps_runs H) (ainv_start ts)) as [C _ _]. pose proof (chain_path C) as HP. destruct (a_stk a) as [|[s t] l]; [cbn; lia|]. exact (path_cons HP).
Qed.
Lemma syntax_unexpected ts a t : asteps (astart ts) a -> astep a = ASyntax -> a_look a = Some t -> unexpected_token (yields (atrees a)) t (syntax_message (atop (a_stk a)) (atok (a_look a))).
Proof.
  intros H E LK. pose proof (atop_range H) as R. set (s := atop (a_stk a)) in *.
  assert (D : decide s (atok (a_look a)) = Some DError /\ s <> YYFINAL).
  { unfold astep in E. fold s in E. destruct (199 <=? _); [discriminate|]. destruct (Z.eqb_spec s YYFINAL); [discriminate|]. split; [|assumption].
    destruct (decide s (atok (a_look a))) as [[|s'|r|]|]; try discriminate E; [..|reflexivity]; [destruct (a_toks a); discriminate|destruct (a_look a); discriminate|].
    destruct (production _) as [[lhs rhs]|]; [|discriminate]. cbv zeta in E. destruct (goto_of _ _); discriminate. }
  destruct D as [D NF]. rewrite LK in D. cbn [atok] in D.
  assert (DE : exists a, (0 <= a < 199)%Z /\ decide s (Some a) = Some DError) by (eexists; split; [apply sym_Z|exact D]).
  constructor.
  - assert (CL : forall x, In x (listed s) -> Z.of_N (sym_of_code (code_listed x)) = x).
    { intros x I. destruct (expected_listed R I DE) as (X & _ & c & C). unfold code_listed. rewrite C. unfold code_for in C. apply find_some in C as [_ C]. apply N.eqb_eq in C. rewrite C. lia. }
    assert (CS : forall x, In x (shiftable s) -> Z.of_N (sym_of_code (code_listed x)) = x).
    { intros x I. destruct (shiftable_In I) as (X & _ & c & C). unfold code_listed. rewrite C. unfold code_for in C. apply find_some in C as [_ C]. apply N.eqb_eq in C. rewrite C. lia. }
    exists (map code_listed (listed s)). split; [|split; [|split; [|split]]].
    + rewrite map_length. unfold listed. cbv zeta. destruct (Z.ltb_spec 4 (Z.of_nat (List.length (expected_tokens s)))); cbn [List.length]; lia.
    + rewrite LK. cbn [atok]. unfold syntax_message, message_text. rewrite <- name_shown. fold (sym_of t). do 2 f_equal. cbv zeta. rewrite map_map.
      assert (ML : map (fun x => shown (code_listed x)) (listed s) = map tok_name (listed s)).
      { apply map_ext_in. intros x I. now rewrite <- name_shown, (CL x I). }
      rewrite ML. unfold listed. cbv zeta. destruct (expected_tokens s) as [|x l]; [reflexivity|]. destruct (4 <? _)%Z; [reflexivity|]. cbn [map]. now rewrite <- join_or_list.
    + intros c I. apply in_map_iff in I as (y & <- & I). rewrite <- name_shown, (CL y I). destruct (expected_listed R I DE) as (X & (s' & S') & _).
      exact (@named_listed y X s s' R S').
    + intros k I. apply in_map_iff in I as (y & EY & I). destruct (expected_listed R I DE) as (X & (s' & S') & _). eapply viable; [exact H|exact NF|]. fold s. unfold sym_of. rewrite <- EY, (CL y I). exact S'.
    + intro K. assert (L : listed s = []) by (destruct (listed s); [reflexivity|discriminate K]). pose proof (proj1 (forallb_forall _ _) silent_checked s (valid_In R)) as C. unfold silent_ok in C. rewrite L in C.
      assert (ER : errs s = true). { destruct DE as (x & RX & DX). unfold errs. apply existsb_exists. exists x. split; [apply zrange_In; lia|]. now rewrite DX. }
      rewrite ER in C. apply Nat.leb_le in C. exists (map code_listed (shiftable s)). split; [rewrite map_length; exact C|]. split.
      * assert (ND : NoDup (shiftable s)) by (apply NoDup_filter, zrange_once). revert ND CS. generalize (shiftable s). clear. induction l as [|x l IH]; intros ND CS; [constructor|]. inversion ND as [|? ? NI ND']; subst. cbn [map]. constructor.
        -- intro I. apply in_map_iff in I as (y & EY & I). apply NI. rewrite <- (CS x (or_introl eq_refl)), <- EY, (CS y (or_intror I)). exact I.
        -- apply IH; [exact ND'|]. intros y I. apply CS. now right.
      * intros k I. apply in_map_iff in I as (y & EY & I). destruct (shiftable_In I) as (X & (s' & S') & _). eapply viable; [exact H|exact NF|]. fold s. unfold sym_of. rewrite <- EY, (CS y I). exact S'.
  - intros T eof rest DT RS K. replace (yields (atrees a) ++ [t]) with (yields (atrees a) ++ alook a) by (unfold alook; now rewrite LK). eapply no_sentence; eassumption.
Qed.
Lemma astep_next a b : astep a = ACont b -> yields (atrees b) ++ alook b = yields (atrees a) ++ alook a \/ exists t, yields (atrees b) ++ alook b = (yields (atrees a) ++ alook a) ++ [t] /\ atrees b = atrees a.
Proof.
  intro E. assert (X : ustep a = ACont b) by (unfold astep in E; destruct (199 <=? _); [discriminate|exact E]). clear E. unfold ustep in X. destruct (_ =? _)%Z; [discriminate|].
  destruct (decide _ _) as [[|s'|r|]|] eqn:D; try discriminate X.
  - destruct (a_toks a) as [|t l] eqn:T; [discriminate|]. injection X as <-. right. exists t. unfold atrees, alook. cbn [a_stk a_look]. destruct (a_look a) as [t'|] eqn:LK; [exfalso; cbn [atok] in D; exact (decide_read D)|]. rewrite app_nil_r. auto.
  - destruct (a_look a) as [t|] eqn:LK; [|discriminate]. injection X as <-. left. rewrite atrees_cons. unfold alook. cbn [a_look]. rewrite LK, Viable.yields_app, app_nil_r. cbn [yields flat_map yield]. rewrite ?app_nil_r.
    destruct a as [stk lk tks]. reflexivity.
  - destruct (production _) as [[lhs rhs]|]; [|discriminate]. cbv zeta in X. destruct (goto_of _ _) as [g|]; [|discriminate]. injection X as <-. left. destruct a as [stk lk tks]. cbn [a_stk a_look a_toks] in *.
    rewrite atrees_cons, (atrees_split (List.length rhs) stk). unfold alook. cbn [a_look]. rewrite !Viable.yields_app. unfold yields at 2. cbn [flat_map yield]. rewrite app_nil_r. reflexivity.
Qed.
Lemma why_check ts a a' : asteps (astart ts) a -> astep a = ACont a' -> sems (atrees a') 0 = None -> check_failed (yields (atrees a) ++ alook a).
Proof.
  intros H E S. assert (H' : asteps (astart ts) a') by (eapply asteps_trans; [exact H|apply asteps_one; exact E]). pose proof (ainv_runs (asteps_runs H') (ainv_start ts)) as [C _ _]. pose proof (chain_derives C) as DL.
  eexists _, (atrees a'). destruct (astep_next E) as [EQ|(t & EQ & AT)].
  - exists (alook a'). split; [unfold atrees; rewrite <- map_rev; exact DL|]. split; [symmetry; exact EQ|exact S].
  - exists (alook a). split; [unfold atrees; rewrite <- map_rev; exact DL|]. split; [now rewrite AT|exact S].
Qed.

(** ** C38: the message names the token read and tokens that could have been read instead *)
Theorem C38_messages : forall buf0 sql ts r e, tokens sql ts -> parse buf0 sql fresh_env = PRet r e -> e_valid e = false ->
  exists seen after, ts = seen ++ after /\
  ((exists before t adr m, seen = before ++ [t] /\ e_msg e = VStr adr m /\ e_line e = VInt (fl (t_pos t)) /\ e_col e = VInt (fc (t_pos t)) /\
      (m = la "memory exhausted" \/ unexpected_token before t m)) \/
   check_failed seen /\ exists adr m, e_msg e = VStr adr m /\ check_message m).
Proof.
  intros buf0 sql ts r e T P V. pose proof (proj2 (C20_errors _ _ _ _ _ T P) V) as ((adr0 & m0 & M0) & _). destruct (tokens_end T) as (EE & TO & LB). unfold parse in P. rewrite LB in P. destruct (yyparse ts fresh_env) as [r1 e1|u|] eqn:Y; try discriminate P. injection P as <- <-.
  cbn [set_valid e_valid] in V. assert (R1 : r1 <> 0%Z) by lia. destruct (@yyparse_prefix ts fresh_env (fun _ => 0) TO eq_refl eq_refl r1 e1 EE (heap_fresh) Y) as (a & seen & H & TS & ES & W & _).
  exists seen, (a_toks a). split; [exact TS|]. specialize (W R1). subst seen. destruct W as [W WS]. destruct W as [(_ & E & (x & M) & AL)|[(_ & E & (x & M) & LK & AL)|(_ & a' & E & S)]].
  - left. destruct AL as (l & t & EQ & E1 & E2). exists l, t, x. eexists. split; [exact EQ|]. split; [exact M|]. split; [exact E1|]. split; [exact E2|]. left. reflexivity.
  - left. destruct (a_look a) as [t|] eqn:LA; [|congruence]. destruct AL as (l & t' & EQ & E1 & E2). unfold alook in EQ. rewrite LA in EQ. apply app_inj_tail in EQ as [<- <-].
    exists (yields (atrees a)), t, x. eexists. split; [unfold alook; now rewrite LA|]. split; [exact M|]. split; [exact E1|]. split; [exact E2|]. right. rewrite <- LA. eapply syntax_unexpected; eassumption.
  - right. split; [eapply why_check; eassumption|]. destruct (WS ltac:(eauto)) as [MN|MS]; [cbn [set_valid e_msg] in M0; congruence|exact MS].
Qed.

(** ** C21: a failed parse depends on the tokens read only *)
(** Same tokens (with their positions): exactly the same outcome, whatever follows. *)
Theorem C21_prefix_decides : forall buf0 sql ts r e, tokens sql ts -> parse buf0 sql fresh_env = PRet r e -> e_valid e = false ->
  exists seen after, ts = seen ++ after /\
  ((exists before t, seen = before ++ [t] /\ e_line e = VInt (fl (t_pos t)) /\ e_col e = VInt (fc (t_pos t))) \/ check_failed seen) /\
  forall buf1 sql' after', tokens sql' (seen ++ after') -> parse buf1 sql' fresh_env = PRet r e.
Proof.
  intros buf0 sql ts r e T P V. destruct (tokens_end T) as (EE & TO & LB). unfold parse in P. rewrite LB in P. destruct (yyparse ts fresh_env) as [r1 e1|u|] eqn:Y; try discriminate P. injection P as <- <-.
  cbn [set_valid e_valid] in V. assert (R1 : r1 <> 0%Z) by lia. destruct (@yyparse_prefix ts fresh_env (fun _ => 0) TO eq_refl eq_refl r1 e1 EE (heap_fresh) Y) as (a & seen & H & TS & ES & W & X).
  exists seen, (a_toks a). split; [exact TS|]. specialize (W R1). destruct W as [W _]. split.
  - subst seen. destruct W as [(_ & _ & _ & (l & t & EQ & E1 & E2))|[(_ & _ & _ & _ & (l & t & EQ & E1 & E2))|(_ & a' & E & S)]]; [left; exists l, t; auto..|right]. eapply why_check; eassumption.
  - intros buf1 sql' after' T'. destruct (tokens_end T') as (EE' & _ & LB'). unfold parse. rewrite LB', (X after' EE'). reflexivity.
Qed.
(** Tokens with the same codes and values, wherever they stand: the same message, at the corresponding token. *)
Theorem C21_same_message : forall buf0 sql ts r e, tokens sql ts -> parse buf0 sql fresh_env = PRet r e -> e_valid e = false ->
  exists seen after, ts = seen ++ after /\
  (check_failed seen \/
   exists adr m, e_msg e = VStr adr m /\
   forall buf1 sql' before' t' after', tokens sql' (before' ++ t' :: after') -> map core (before' ++ [t']) = map core seen ->
   exists e' adr', parse buf1 sql' fresh_env = PRet r e' /\ e_valid e' = false /\ e_msg e' = VStr adr' m /\ e_line e' = VInt (fl (t_pos t')) /\ e_col e' = VInt (fc (t_pos t'))).
Proof.
  intros buf0 sql ts r e T P V. destruct (tokens_end T) as (EE & TO & LB). unfold parse in P. rewrite LB in P. destruct (yyparse ts fresh_env) as [r1 e1|u|] eqn:Y; try discriminate P. injection P as <- <-.
  cbn [set_valid e_valid] in V. assert (R1 : r1 <> 0%Z) by lia. destruct (@yyparse_prefix ts fresh_env (fun _ => 0) TO eq_refl eq_refl r1 e1 EE (heap_fresh) Y) as (a & seen & H & TS & ES & W & _).
  exists seen, (a_toks a). split; [exact TS|]. specialize (W R1). destruct W as [W _]. subst seen.
  destruct (sems (atrees a) 0) as [vs|] eqn:SE; [|left; pose proof (ainv_runs (asteps_runs H) (ainv_start ts)) as [C _ _]; pose proof (chain_derives C) as DL; eexists _, (atrees a), (alook a); split; [unfold atrees; rewrite <- map_rev; exact DL|split; [reflexivity|exact SE]]].
  assert (G : forall m (st : astate -> Prop), (forall b, stk_sim same_core similar a b -> st b) ->
    (forall b, st b -> (forall x, astep b <> ACont x) /\ astep b <> AAccept /\ forall r' e', why b r' e' -> r' = r1 /\ exists adr', e_msg e' = VStr adr' m /\ at_last (yields (atrees b) ++ alook b) e') ->
    forall buf1 sql' before' t' after', tokens sql' (before' ++ t' :: after') -> map core (before' ++ [t']) = map core (yields (atrees a) ++ alook a) ->
    exists e' adr', parse buf1 sql' fresh_env = PRet r1 e' /\ e_valid e' = false /\ e_msg e' = VStr adr' m /\ e_line e' = VInt (fl (t_pos t')) /\ e_col e' = VInt (fc (t_pos t'))).
  { intros m st SB1 SB2 buf1 sql' before' t' after' T' EC. destruct (tokens_end T') as (EE' & TO' & LB'). replace (before' ++ t' :: after') with ((before' ++ [t']) ++ after') in * by (now rewrite <- app_assoc).
    destruct (core_run after' H EC) as (b & HB & SB & _ & YB). destruct (SB2 b (SB1 b SB)) as (NC & NA & WY).
    pose proof (@yyparse_explained ((before' ++ [t']) ++ after') fresh_env (fun _ => 0) TO' eq_refl eq_refl EE' heap_fresh) as X. destruct X as (c & HC & X).
    assert (SN : forall c', astep c = ACont c' -> sems (atrees c') 0 = None -> False).
    { intros c' EC' S'. assert (HC' : asteps (astart ((before' ++ [t']) ++ after')) c') by (eapply asteps_trans; [exact HC|apply asteps_one; exact EC']).
      assert (Q : asteps c' b). { destruct (asteps_det HC' HB) as [Q|Q]; [exact Q|]. inversion Q as [|? ? ? E2 _]; subst; [exact Q|]. exfalso. eapply NC. exact E2. }
      pose proof (asteps_sems Q S') as SB'. assert (Z : sems (atrees a) 0 = sems (atrees b) 0).
      { apply similars_sems, similars_Forall2. unfold atrees. apply Forall2_rev. destruct SB as [SB _]. exact (Forall2_snd SB). }
      congruence. }
    assert (CB : (forall x, astep c <> ACont x) -> b = c) by (intro; eapply asteps_end; eassumption).
    unfold parse. rewrite LB'. destruct (yyparse ((before' ++ [t']) ++ after') fresh_env) as [r2 e2|u|]; [|destruct X as (_ & c' & E1 & E2); destruct (SN _ E1 E2)|destruct X].
    destruct X as [(-> & E1 & _)|(_ & _ & WC)]; [rewrite <- (CB ltac:(intros x Q; congruence)) in E1; congruence|].
    assert (BC : b = c). { apply CB. intros x Q. destruct WC as [(_ & E & _)|[(_ & E & _)|(_ & c' & E & S)]]; [congruence..|exact (SN _ E S)]. }
    subst c. destruct (WY _ _ WC) as (-> & adr' & M & AL). rewrite YB in AL. destruct AL as (l & t & EQ & E1 & E2). apply app_inj_tail in EQ as [_ <-]. exists (set_valid (r1 =? 0)%Z e2), adr'. split; [reflexivity|]. auto. }
  destruct W as [(-> & E & (x & M) & AL)|[(-> & E & (x & M) & LK & AL)|(_ & a' & E & S)]]; [right; exists x; eexists; split; [exact M|]..|left; eapply why_check; eassumption].
  - apply (G err_exhausted (fun b => astep b = AExhausted)).
    + intros b [S _]. apply astep_full. rewrite <- (Forall2_len S). unfold astep in E. destruct (Nat.leb_spec 199 (List.length (a_stk a))) as [L|]; [exact L|]. exfalso.
      destruct (atop (a_stk a) =? YYFINAL)%Z; [discriminate E|]. destruct (decide _ _) as [[|s'|r|]|]; try discriminate E; [destruct (a_toks a); discriminate E|destruct (a_look a); discriminate E|].
      destruct (production _) as [[lhs rhs]|]; [|discriminate E]. cbv zeta in E. destruct (goto_of _ _); discriminate E.
    + intros b EB. split; [intros y; congruence|]. split; [congruence|]. intros r' e' [(-> & _ & (y & MY) & AY)|[(-> & F & _)|(_ & b' & F & _)]]; [eauto|congruence..].
  - apply (G (syntax_message (atop (a_stk a)) (atok (a_look a))) (fun b => astep b = ASyntax /\ atop (a_stk b) = atop (a_stk a) /\ atok (a_look b) = atok (a_look a))).
    + intros b SB. assert (LA : List.length (a_stk a) < 199) by (unfold astep in E; destruct (Nat.leb_spec 199 (List.length (a_stk a))); [discriminate|assumption]).
      rewrite astep_ustep in E by exact LA. destruct SB as [S L]. split; [|split; [symmetry; exact (sim_top S)|symmetry; exact (sim_tok core_sym L)]].
      rewrite astep_ustep by (rewrite <- (Forall2_len S); exact LA). eapply sim_out; [exact core_sym|split; eassumption|exact E].
    + intros b (EB & E1 & E2). split; [intros y; congruence|]. split; [congruence|]. intros r' e' [(-> & F & _)|[(-> & _ & (y & MY) & _ & AY)|(_ & b' & F & _)]]; [congruence| |congruence].
      split; [reflexivity|]. exists y. rewrite E1, E2 in MY. auto.
Qed.
(** Tokens of the same kinds: after a syntax error no continuation makes the input valid. *)
Theorem C21_no_repair : forall buf0 sql ts r e, tokens sql ts -> parse buf0 sql fresh_env = PRet r e -> e_valid e = false ->
  exists seen after, ts = seen ++ after /\
  ((exists adr, e_msg e = VStr adr (la "memory exhausted")) \/ check_failed seen \/
   forall buf1 sql' ts' rest r' e', tokens sql' ts' -> map sym_of ts' = map sym_of seen ++ rest -> parse buf1 sql' fresh_env = PRet r' e' -> e_valid e' = false).
Proof.
  intros buf0 sql ts r e T P V. destruct (C38_messages T P V) as (seen & after & TS & [(before & t & adr & m & ES & M & _ & _ & [->|UT])|[CF _]]); exists seen, after; (split; [exact TS|]); [left; eauto| |auto].
  right. right. intros buf1 sql' ts' rest r' e' T' K P'. destruct (e_valid e') eqn:V'; [exfalso|reflexivity].
  pose proof (@parse_valid buf1 sql' ts' fresh_env (fun _ => 0) T' eq_refl eq_refl heap_fresh r' e' P') as PV. apply PV in V' as (l & n & tl & semi & eof & (D & Y & E & RS & _) & _).
  eapply (ut_sound UT (T := Node 2 [tl; semi]) (eof := eof) (rest := rest)); [exact D|exact RS|exact E|]. rewrite Y, <- ES. exact K.
Qed.
(** The message of an example, and the same error in a different layout with a different continuation. *)
Example C21_example : exists ts e, tokens (la "INSERT t (") ts /\ parse [] (la "INSERT t (") fresh_env = PRet 1 e /\ e_valid e = false /\
  (exists adr, e_msg e = VStr adr (la "syntax error, unexpected IDENTIFIER, expecting INTO")) /\ e_line e = VInt 0 /\ e_col e = VInt 7 /\
  (exists before t rest, tokens (la "insert" ++ LF :: la "t VALUES (1); COMMIT") (before ++ t :: rest) /\ map core (before ++ [t]) = map core (firstn 2 ts)).
Proof.
  eexists _, _. split; [vm_compute; reflexivity|]. split; [vm_compute; reflexivity|]. split; [reflexivity|]. split; [eexists; reflexivity|]. split; [reflexivity|]. split; [reflexivity|].
  assert (E : exists t1 t2 rest, tokens (la "insert" ++ LF :: la "t VALUES (1); COMMIT") (t1 :: t2 :: rest) /\ core t1 = (TOK_INSERT, TVNone) /\ core t2 = (TOK_IDENTIFIER, TVStr (la "t"))).
  { eexists _, _, _. split; [vm_compute; reflexivity|]. split; vm_compute; reflexivity. }
  destruct E as (t1 & t2 & rest & T & E1 & E2). exists [t1], t2, rest. split; [exact T|]. cbn [map app]. rewrite E1, E2. vm_compute. reflexivity.
Qed.
Example C38_example : exists ts e adr, tokens (la "SELECT a FROM t GROUP a") ts /\ parse [] (la "SELECT a FROM t GROUP a") fresh_env = PRet 1 e /\ e_valid e = false /\
  e_msg e = VStr adr (message_text (la "IDENTIFIER") [la "BY"]).
Proof. eexists _, _, _. split; [vm_compute; reflexivity|]. split; [vm_compute; reflexivity|]. split; reflexivity. Qed.
