(** Property C59: which statements a failed parse leaves in the result.
    Vocabulary: [begins l] (Viable.v): some sentence of the grammar, followed by the end of input, begins with the tokens [l].
    [core t]: the kind and the value of a token, without its position; [erase v]: a value without the addresses of its parts. *)
From Verif Require Adjacent.
From Verif Require Import Script PropParse PropError Overflow PropUndef Left.
From Verif Require Import Inv InvStep InvRun Abs Prec.
From Coq Require Import ZifyBool ZifyNat ZifyN.
Local Open Scope nat_scope.

(** The tokens end with something other than a semicolon. *)
Definition no_final_semicolon (l : list token) : Prop := exists l0 k, l = l0 ++ [k] /\ t_code k <> bz ";"%char.
(** The results hold the same statements and as many parameters. *)
Definition same_statements (e e' : env) : Prop := map erase (e_stmts e') = map erase (e_stmts e) /\ List.length (e_params e') = List.length (e_params e).

Lemma ends_eof_last l k : ends_eof (l ++ [k]) -> sym_of k = 0%N.
Proof.
  induction l as [|x l IH]; cbn [app]; intro E; inversion E as [? L|? ? _ E']; subst; [|inversion E'|destruct l; discriminate|auto].
  unfold sym_of, sym_of_code. now destruct (Z.leb_spec (t_code k) 0); [|lia].
Qed.
(** A failed parse leaves statements only if the text before the offending token is a valid text by itself, which does not end with a
    semicolon: then it leaves the statements (and the parameters) of that text. *)
Theorem C59_only_complete_beginnings : forall buf0 sql ts r e, tokens sql ts -> parse buf0 sql fresh_env = PRet r e -> e_valid e = false -> e_stmts e <> [] ->
  exists before t after, ts = before ++ t :: after /\ e_line e = VInt (fl (t_pos t)) /\ e_col e = VInt (fc (t_pos t)) /\ no_final_semicolon before /\
  forall buf' sql' before' eof, tokens sql' (before' ++ [eof]) -> map core before' = map core before ->
  exists e', parse buf' sql' fresh_env = PRet 0 e' /\ e_valid e' = true /\ same_statements e e'.
Proof.
  intros buf0 sql ts r e T P V NE. destruct (tokens_end T) as (EE & TO & LB). unfold parse in P. rewrite LB in P. destruct (yyparse ts fresh_env) as [r1 e1|u1|] eqn:Y; try discriminate P. injection P as <- <-. cbn [set_valid e_valid e_stmts] in V, NE.
  destruct (@yyparse_left ts fresh_env (fun _ => 0) TO eq_refl eq_refl r1 e1 EE heap_fresh Y) as (a & A & LO & W & LF). assert (R1 : r1 <> 0%Z) by lia. destruct W as [W|W]; [contradiction|].
  assert (AS : astep a = ASyntax).
  { destruct W as [(_ & AS & _)|[(_ & AS & _)|(_ & a' & AS & _)]]; [|exact AS|]; exfalso; apply NE, LF; auto; rewrite AS; discriminate. }
  specialize (LO AS). destruct W as [(_ & AS' & _)|[(_ & _ & _ & LK & AL)|(_ & a' & AS' & _)]]; [congruence| |congruence].
  destruct LO as [(tl & semi & AT & RO)|[_ ES]]; [|contradiction]. destruct (left_input A AS AT) as (D & RS & ND & (l0 & k & YK & SK)).
  destruct (a_look a) as [t|] eqn:LA; [|congruence]. unfold alook in AL. rewrite LA in AL. destruct AL as (l1 & t1 & EQ & E1 & E2). apply app_inj_tail in EQ as [<- <-].
  pose proof (ainv_runs (asteps_runs A) (ainv_start ts)) as [_ TX _]. unfold pend, alook in TX. rewrite LA in TX. cbn [app] in TX.
  exists (yields (atrees a)), t, (a_toks a). split; [symmetry; exact TX|]. split; [exact E1|]. split; [exact E2|].
  assert (YB : yields (atrees a) = yield (Node 2 [tl; semi])) by (rewrite AT; cbn [yields flat_map]; apply app_nil_r).
  split; [exists l0, k; split; [rewrite YB; exact YK|intro CK; apply SK; unfold sym_of; rewrite CK; vm_compute; reflexivity]|].
  intros buf' sql' before' eof T' EC. destruct RO as [(l & ES & WT & SM & _) RP]. cbn [fresh_env e_stmts e_params app] in ES, RP. destruct (tokens_end T') as (EE' & _).
  assert (M : means (before' ++ [eof]) (map erase l) (List.length (e_plist e1))).
  { rewrite YB in EC. symmetry in EC. destruct (relabel EC) as (u & SU & YU). destruct u as [|q us]; [destruct SU|]. assert (SU' := SU). destruct SU as [<- SU]. destruct us as [|tl' [|semi' [|]]]; try (cbn in SU; tauto). destruct SU as [S1 _].
    exists tl', semi', eof. split; [|rewrite <- SM; symmetry; exact (similar_sem 0 S1)]. split; [eapply similar_derives; eassumption|]. split; [now rewrite YU|]. split.
    - apply ends_eof_last in EE'. exact EE'.
    - split; [rewrite <- RS; symmetry; now apply similar_respects|rewrite <- (similar_need SU'); exact ND]. }
  destruct (proj2 (parse_means (B := fun _ => 0) buf' (e0 := fresh_env) T' eq_refl eq_refl heap_fresh _ _) M) as (e' & l' & P' & V' & ES' & EM & EN). exists e'. split; [exact P'|]. split; [exact V'|].
  cbn [fresh_env e_stmts app] in ES'. subst l'. split; [cbn [set_valid e_stmts]; now rewrite ES|]. cbn [set_valid e_params]. rewrite EN, RP. symmetry. apply numbers_length.
Qed.

(** And then it always leaves them: [sql'] is a valid text without a final semicolon, [sql] has its tokens, followed by a token that
    cannot follow them in any text. *)
Theorem C59_complete_beginnings_stay : forall sql before t after sql' before' eof buf' r' e',
  tokens sql (before ++ t :: after) -> tokens sql' (before' ++ [eof]) -> map core before' = map core before ->
  parse buf' sql' fresh_env = PRet r' e' -> e_valid e' = true -> no_final_semicolon before -> ~ begins (before ++ [t]) ->
  forall buf0, exists e, parse buf0 sql fresh_env = PRet 1 e /\ e_valid e = false /\ e_line e = VInt (fl (t_pos t)) /\ e_col e = VInt (fc (t_pos t)) /\ same_statements e e'.
Proof.
  intros sql before t after sql' before' eof buf' r' e' T T' EC P V (l0 & k & EB & CK) NB buf0. destruct (tokens_end T) as (EE & TO & LB). destruct (tokens_end T') as (EE' & TO' & LB').
  assert (RC : r' = 0%Z /\ exists tl semi, recognises (before' ++ [eof]) (Node 2 [tl; semi]) eof /\ sem tl 0 = Some (VVec 0 (map erase (e_stmts e')), List.length (e_params e')) /\ derives S_input (Node 2 [tl; semi]) /\ sym_of eof = 0%N).
  { unfold parse in P. rewrite LB' in P. destruct (yyparse _ fresh_env) as [r1 e1|u1|] eqn:Y; try discriminate P. injection P as <- <-. cbn [set_valid e_valid] in V. assert (r1 = 0%Z) by lia. subst r1. split; [reflexivity|].
    destruct (@yyparse_recognises _ fresh_env (fun _ => 0) TO' eq_refl eq_refl EE' heap_fresh e1 Y) as (tl & semi & k1 & RC & _ & AC). destruct (proj1 (recognises_iff (Node 2 [tl; semi]) k1 EE') RC) as (D & YE & KE & _).
    apply app_inj_tail in YE as [_ ->]. exists tl, semi. split; [exact RC|]. destruct AC as (lost & _ & _ & _ & _ & [(l & ES & _ & SM & _) RP] & _). cbn [fresh_env e_stmts e_params app] in ES, RP. cbn [set_valid e_stmts e_params].
    rewrite ES, RP, numbers_length. auto. }
  destruct RC as (-> & tl & semi & RC & SM & DI & KE).
  assert (NS : forall l k, before = l ++ [k] -> sym_of k <> S_semi).
  { intros l k1 EQ SK. rewrite EB in EQ. apply app_inj_tail in EQ as [_ <-]. apply CK. apply (code_by_sym sql (before ++ t :: after) k _ S_semi T); [rewrite EB; apply in_app_iff; left; apply in_app_iff; right; now left|exact SK|vm_compute; reflexivity]. }
  assert (KT : sym_of t <> 0%N).
  { intro KT. apply NB. destruct (proj1 (recognises_iff (Node 2 [tl; semi]) eof EE') RC) as (D & YE & _). apply app_inj_tail in YE as [YE _]. rewrite <- YE in EC. destruct (relabel EC) as (u & SU & YU).
    exists u, t, []. split; [eapply similar_derives; eassumption|]. split; [exact KT|]. now rewrite YU, app_nil_r. }
  destruct (lock_end after EE' RC EC NB NS KT) as (y & tl' & semi' & AY & SY & TY & SE & LY & YY).
  destruct (@yyparse_explained (before ++ t :: after) fresh_env (fun _ => 0) TO eq_refl eq_refl EE heap_fresh) as (a & A & X).
  assert (SN : forall a', astep a = ACont a' -> sems (atrees a') 0 = None -> False).
  { intros a' EA S'. assert (HA : asteps (astart (before ++ t :: after)) a') by (eapply asteps_trans; [exact A|apply asteps_one; exact EA]).
    assert (Q : asteps a' y). { destruct (asteps_det HA AY) as [Q|Q]; [exact Q|]. inversion Q as [|? ? ? E2 _]; subst; [exact Q|congruence]. }
    pose proof (asteps_sems Q S') as SQ. rewrite TY in SQ. cbn [sems] in SQ. pose proof (ainv_runs (asteps_runs AY) (ainv_start _)) as [C _ _]. 
    assert (DI' : derives S_input (Node 2 [tl'; semi'])). { destruct (left_input AY SY TY) as (D & _). exact D. }
    assert (SI : sem (Node 2 [tl'; semi']) 0 <> None) by (eapply sem_input; [exact DI'|rewrite SE; exact SM]). destruct (sem (Node 2 [tl'; semi']) 0) as [[]|]; [discriminate SQ|contradiction]. }
  unfold parse. rewrite LB. destruct (yyparse (before ++ t :: after) fresh_env) as [r1 e1|u|] eqn:Y; [|destruct X as (_ & a' & E1 & E2); destruct (SN _ E1 E2)|destruct X].
  destruct (@yyparse_left _ fresh_env (fun _ => 0) TO eq_refl eq_refl r1 e1 EE heap_fresh Y) as (b & B & LO & W & _).
  assert (BY : (forall x, astep b <> ACont x) -> b = y) by (intro; eapply asteps_end; [exact B|exact AY|assumption|rewrite SY; discriminate]).
  assert (AYE : (forall x, astep a <> ACont x) -> a = y) by (intro; eapply asteps_end; [exact A|exact AY|assumption|rewrite SY; discriminate]).
  destruct X as [(_ & AA & _)|(_ & _ & WA)]; [rewrite (AYE ltac:(rewrite AA; discriminate)) in AA; congruence|].
  assert (a = y).
  { apply AYE. intros x EX. destruct WA as [(_ & E & _)|[(_ & E & _)|(_ & a' & E & S)]]; [congruence..|exact (SN _ E S)]. }
  subst a. destruct WA as [(_ & E & _)|[(-> & _ & _ & _ & AL)|(_ & a' & E & _)]]; [congruence| |congruence].
  assert (BEQ : b = y).
  { apply BY. intros x EX. destruct W as [W|W]; [discriminate W|]. destruct W as [(_ & E & _)|[(_ & E & _)|(_ & a' & E & S)]]; [congruence..|].
    assert (HB : asteps (astart (before ++ t :: after)) a') by (eapply asteps_trans; [exact B|apply asteps_one; exact E]).
    assert (Q : asteps a' y). { destruct (asteps_det HB AY) as [Q|Q]; [exact Q|]. inversion Q as [|? ? ? E2 _]; subst; [exact Q|congruence]. }
    pose proof (asteps_sems Q S) as SQ. rewrite TY in SQ. cbn [sems] in SQ. destruct (left_input AY SY TY) as (D & _).
    assert (SI : sem (Node 2 [tl'; semi']) 0 <> None) by (eapply sem_input; [exact D|rewrite SE; exact SM]). destruct (sem (Node 2 [tl'; semi']) 0) as [[]|]; [discriminate SQ|contradiction]. }
  subst b. destruct (LO SY) as [(tl2 & semi2 & AT & RO)|[N _]]; [|destruct (N tl' semi' TY)]. rewrite TY in AT. injection AT as <- <-. destruct RO as [(l & ES & _ & SM2 & _) RP]. cbn [fresh_env e_stmts e_params app] in ES, RP.
  exists (set_valid false e1). split; [reflexivity|]. split; [reflexivity|]. destruct AL as (l1 & t1 & EQ & E1 & E2). unfold alook in EQ. rewrite LY in EQ. apply app_inj_tail in EQ as [_ <-]. split; [exact E1|]. split; [exact E2|].
  rewrite SE, SM in SM2. injection SM2 as S1 S2. split; cbn [set_valid e_stmts e_params]; [rewrite ES; exact S1|rewrite RP, numbers_length; exact S2].
Qed.

(** Two tokens that are neighbours in no sentence. *)
Lemma never_neighbours l x y : Adjacent.meeting (sym_of x) (sym_of y) = [] -> sym_of y <> 0%N -> ~ begins (l ++ [x; y]).
Proof.
  intros M N (T & e & rest & D & E & Y). rewrite <- app_assoc in Y. cbn [app] in Y. assert (YT : exists l2, yield T = l ++ x :: y :: l2).
  { destruct rest as [|z rest _] using rev_ind.
    - change (l ++ [x; y]) with (l ++ [x] ++ [y]) in Y. rewrite app_assoc in Y. apply app_inj_tail in Y as [_ ->]. contradiction.
    - change (x :: y :: rest ++ [z]) with ((x :: y :: rest) ++ [z]) in Y. rewrite app_assoc in Y. apply app_inj_tail in Y as [Y _]. eauto. }
  destruct YT as (l2 & YT). destruct (Adjacent.neighbours D YT) as (r & ts1 & ts2 & l0 & m & a & b & il & _ & _ & _ & _ & _ & I & _). rewrite M in I. destruct I.
Qed.
(** COMMIT stays, with its parameterless neighbours; after a semicolon, or where the operator is not associative, nothing stays. *)
Example C59_example : forall buf0, exists e e', parse [] (la "SELECT a FROM t; COMMIT") fresh_env = PRet 0 e' /\ List.length (e_stmts e') = 2 /\
  parse buf0 (la "SELECT a FROM t; COMMIT 1 ( '") fresh_env = PRet 1 e /\ e_valid e = false /\ same_statements e e'.
Proof.
  intro buf0.
  assert (T : exists before t after, tokens (la "SELECT a FROM t; COMMIT 1 ( '") (before ++ t :: after) /\ map core before = [(TOK_SELECT, TVNone); (TOK_IDENTIFIER, TVStr (la "a")); (TOK_FROM, TVNone); (TOK_IDENTIFIER, TVStr (la "t")); (59%Z, TVNone); (TOK_COMMIT, TVNone)] /\ t_code t = TOK_INTVAL).
  { eexists [_; _; _; _; _; _], _, _. split; [vm_compute; reflexivity|]. vm_compute. split; reflexivity. }
  assert (T' : exists before eof, tokens (la "SELECT a FROM t; COMMIT") (before ++ [eof]) /\ map core before = [(TOK_SELECT, TVNone); (TOK_IDENTIFIER, TVStr (la "a")); (TOK_FROM, TVNone); (TOK_IDENTIFIER, TVStr (la "t")); (59%Z, TVNone); (TOK_COMMIT, TVNone)]).
  { eexists [_; _; _; _; _; _], _. split; [vm_compute; reflexivity|]. vm_compute. reflexivity. }
  assert (P : exists e', parse [] (la "SELECT a FROM t; COMMIT") fresh_env = PRet 0 e' /\ e_valid e' = true /\ List.length (e_stmts e') = 2) by (eexists; split; [vm_compute; reflexivity|split; reflexivity]).
  destruct T as (before & t & after & T & EC & CT). destruct T' as (before' & eof & T' & EC'). destruct P as (e' & P & V & L).
  assert (BE : exists l k, before = l ++ [k] /\ core k = (TOK_COMMIT, TVNone)).
  { destruct before as [|k1 [|k2 [|k3 [|k4 [|k5 [|k6 [|]]]]]]]; try discriminate EC. exists [k1; k2; k3; k4; k5], k6. split; [reflexivity|]. cbn [map] in EC. injection EC as _ _ _ _ _ EC. unfold core. congruence. }
  destruct BE as (l & k & BE & CK). unfold core in CK. injection CK as CK _.
  destruct (C59_complete_beginnings_stay _ _ _ _ _ _ _ _ _ _ T T' (eq_trans EC' (eq_sym EC)) P V) with (buf0 := buf0) as (e & PE & VE & _ & _ & SE).
  - exists l, k. split; [exact BE|]. rewrite CK. vm_compute. discriminate.
  - rewrite BE, <- app_assoc. cbn [app]. unfold sym_of. apply never_neighbours; unfold sym_of; rewrite ?CK, CT; vm_compute; [reflexivity|discriminate].
  - exists e, e'. auto.
Qed.
Example C59_example_nothing : forall buf0, exists e1 e2, parse buf0 (la "COMMIT; 1") fresh_env = PRet 1 e1 /\ e_stmts e1 = [] /\ parse buf0 (la "SELECT 1 = 2 = 3") fresh_env = PRet 1 e2 /\ e_stmts e2 = [].
Proof. intro. unfold parse. rewrite !lex_all_buf. eexists _, _. split; [vm_compute; reflexivity|]. split; [reflexivity|]. split; [vm_compute; reflexivity|]. reflexivity. Qed.
