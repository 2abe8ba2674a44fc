(** What a failed parse leaves in the result.  No code of /repo. *)
From Verif Require Import Script PropParse Verdict PrecSound Prefix Viable Overflow PropUndef PropError.
From Verif Require Import Inv InvStep InvRun Abs Prec.
From Coq Require Import ZifyBool ZifyNat ZifyN.
Local Open Scope nat_scope.
Set Implicit Arguments.
Unset Strict Implicit.

(** ** The statements are those of the script on the machine's stack, if there is one *)
Definition left_over (e0 : env) (a : astate) (e : env) : Prop :=
  (exists tl ts, atrees a = [Node 2 [tl; ts]] /\ result_of e0 tl e) \/
  (forall tl ts, atrees a <> [Node 2 [tl; ts]]) /\ e_stmts e = e_stmts e0.
Lemma error_stmts ts0 e0 B p ents b trees lk lost r msg m c e' : inv ts0 e0 B p ents b trees lk lost ->
  cleans m (fun x => cas x (map s_val ents) + lca x (p_look p)) c ->
  finish r (yyerror_at (fl (e_lpos (p_env p))) (fc (e_lpos (p_env p))) msg ;; m) (p_env p) = Stop r e' ->
  e_stmts e' = e_stmts (p_env p) /\ e_params e' = e_params (p_env p) /\ e_plist e' = e_plist (p_env p).
Proof.
  intros I CL E. pose proof (i_heap I) as IHEAP.
  destruct (yyerror_at_eq (fl (e_lpos (p_env p))) (fc (e_lpos (p_env p))) msg IHEAP) as (e1 & E1 & H1 & (R1 & R2 & R3 & R4 & R5) & V1 & M1 & L1 & C1).
  destruct (@cleans_run m _ c e1 (fun x => ca x (e_msg e1) + (ca x (e_msg (p_env p)) + cas x (e_stmts (p_env p)) + lost x + B x)) CL) as (e2 & lost2 & E2 & S2 & H2 & LZ).
  { eapply heap_ext; [exact H1|]. intro x. cbn beta. lia. }
  destruct S2 as ((Q1 & Q2 & Q3 & Q4 & Q5) & (Q6 & Q7 & Q8 & Q9)). unfold finish, bind in E. rewrite E1, E2 in E. injection E as <-. split; [congruence|]. split; congruence.
Qed.
Section Left.
Variables (ts0 : list token) (e0 : env) (B : N -> nat).
Hypothesis OK0 : Forall tok_ok ts0.
Hypothesis M0 : e_msg e0 = VNull.
Hypothesis P0 : e_params e0 = [].
Lemma left_step p ents b trees lk lost r e : inv ts0 e0 B p ents b trees lk lost -> step p = Stop r e -> astep (abs ents trees lk (p_toks p)) = ASyntax ->
  left_over e0 (abs ents trees lk (p_toks p)) e.
Proof.
  intros I ST AS. pose proof (step_cases (i_ctl I)) as SC. pose proof (Forall2_len (i_ents I)) as LEN.
  inversion SC as
    [HD E | x stk HD E1 E2 E | x stk t ts HD E1 E2 E3 E4 E5 E | x stk s' c v HD E1 E2 E3 E4 E5 E6 E
     | x stk r1 lhs rhs popped below stk' g HD E1 E2 E3 E4 E5 E6 E7 E8 E9 E10 E11 E12 E13 E14 E | x stk HD E1 E2 E3 E4 E].
  - rewrite (abs_exhausted I HD) in AS. discriminate.
  - exfalso. unfold astep in AS. rewrite (abs_top I E1), E2 in AS. change (YYFINAL =? YYFINAL)%Z with true in AS. destruct (199 <=? _); discriminate.
  - exfalso. rewrite ST in E. destruct (read_token t (p_env p)); discriminate.
  - exfalso. rewrite ST in E. discriminate.
  - exfalso. pose proof (abs_step I E1 HD E2) as AB. rewrite E3 in AB. rewrite AB in AS. cbv zeta in AS. rewrite E4 in AS. destruct (goto_of _ _) in AS; discriminate.
  - rewrite ST in E. rewrite (i_stk I) in E.
    assert (CL : cleans (pop_error (rev ents ++ [b]) ;; drop_look (p_look p)) (fun x => cas x (map s_val ents) + lca x (p_look p)) (quiet (rev ents))).
    { eapply cleans_ext.
      - apply cleans_seq; [|apply (drop_look_cleans (i_look I))]. apply pop_error_cleans.
        + apply Forall_rev', (ents_typed (i_ents I)).
        + eapply ents_rng. rewrite <- (i_stk I). apply (i_ctl I).
        + rewrite <- (i_stk I). apply stack_shifts; [apply (i_ctl I)|]. now rewrite E1.
      - intro y. cbn beta. rewrite map_rev, cas_rev. lia.
      - intro C. now rewrite andb_true_r. }
    assert (r = 1%Z) as -> by (clear - E; unfold finish in E; match type of E with context [match ?m with _ => _ end] => destruct m end; congruence).
    destruct (error_stmts I CL E) as (S1 & S2 & S3). unfold left_over. rewrite (abs_trees _ _ LEN). destruct (i_phase I) as [EA|LT].
    + right. split; [|rewrite S1; apply (ea_stmts EA)]. intros tl ts ET. pose proof (i_ents I) as F. rewrite ET in F. inversion F as [|y ? ents' ? EN1 EN2]; subst.
      pose proof (ea_ents EA) as NI. inversion NI as [|? ? NI1 _]; subst. apply NI1. apply (derives_input (en_tree EN1)).
    + destruct (late_top (i_ctl I) (i_stk I) (i_ents I) LT) as (tl & ts & [(ET & _)|(k & y & z & ET & _ & _ & PL & _)]); [|congruence].
      left. exists tl, ts. split; [exact ET|]. destruct LT as (tl' & ts' & rest & ET' & _ & RO & _). rewrite ET in ET'. injection ET' as <- <- <-. eapply result_same; eassumption.
Qed.
(** No other failure leaves statements. *)
Lemma noerr_bind A C (m : M A) (k : A -> M C) : (forall e e', m e <> RErr e') -> (forall a e e', k a e <> RErr e') -> forall e e', bind m k e <> RErr e'.
Proof. intros H1 H2 e e'. unfold bind. specialize (H1 e). destruct (m e) as [a e1|e1|u]; [apply H2|destruct (H1 e1); reflexivity|discriminate]. Qed.
Lemma noerr_check a : forall e e', check a e <> RErr e'.
Proof. intros e e'. unfold check. destruct (memN _ _); discriminate. Qed.
Lemma noerr_number l : forall id e e', number_params l id e <> RErr e'.
Proof.
  induction l as [|a l IH]; intros id; [discriminate|]. cbn [number_params]. apply noerr_bind; [apply noerr_check|]. intros _. apply noerr_bind; [discriminate|]. intros _. apply noerr_bind; [|intros _; apply IH].
  intros e e'. unfold addParameter. repeat match goal with |- context [match ?x with _ => _ end] => destruct x end; try discriminate.
Qed.
Lemma noerr_act2 vs : forall e e', act 2 vs e <> RErr e'.
Proof.
  unfold act. cbn [nth Nat.pred]. apply noerr_bind.
  - intros e e'. unfold velems. destruct (nth 0 vs VUninit); try discriminate. apply noerr_bind; [apply noerr_check|discriminate].
  - intro l. apply noerr_bind; [discriminate|]. intros _. apply noerr_bind; [intros e e'; apply noerr_number|]. intros _. apply noerr_bind; [|discriminate].
    intros e e'. unfold del_block. destruct (nth 0 vs VUninit); try discriminate; unfold release; destruct (memN _ _); discriminate.
Qed.
Lemma left_fail p ents b trees lk lost r e : inv ts0 e0 B p ents b trees lk lost -> step p = Stop r e -> r <> 0%Z -> astep (abs ents trees lk (p_toks p)) <> ASyntax -> e_stmts e = e_stmts e0.
Proof.
  intros I ST R0 AS. pose proof (step_cases (i_ctl I)) as SC. pose proof (Forall2_len (i_ents I)) as LEN.
  inversion SC as
    [HD E | x stk HD E1 E2 E | x stk t ts HD E1 E2 E3 E4 E5 E | x stk s' c v HD E1 E2 E3 E4 E5 E6 E
     | x stk r1 lhs rhs popped below stk' g HD E1 E2 E3 E4 E5 E6 E7 E8 E9 E10 E11 E12 E13 E14 E | x stk HD E1 E2 E3 E4 E].
  - rewrite ST in E. rewrite (i_stk I) in E.
    assert (CL : cleans (drop_look (p_look p) ;; pop_all (rev ents ++ [b])) (fun x => cas x (map s_val ents) + lca x (p_look p)) (quiet (rev ents))).
    { eapply cleans_ext.
      - apply cleans_seq; [apply (drop_look_cleans (i_look I))|]. apply pop_all_cleans.
        + apply Forall_rev', (ents_typed (i_ents I)).
        + eapply ents_rng. rewrite <- (i_stk I). apply (i_ctl I).
      - intro x. cbn beta. rewrite map_rev, cas_rev. lia.
      - auto. }
    assert (r = 2%Z) as -> by (clear - E; unfold finish in E; match type of E with context [match ?m with _ => _ end] => destruct m end; congruence).
    destruct (error_stmts I CL E) as (S1 & _). rewrite S1. destruct (i_phase I) as [EA|LT]; [apply (ea_stmts EA)|]. exfalso.
    destruct (late_top (i_ctl I) (i_stk I) (i_ents I) LT) as (tl & ts & [(_ & x0 & EE & _)|(k & y & z & _ & _ & _ & _ & EE & _)]);
      rewrite (i_stk I), EE in HD; cbn in HD; unfold YYINITDEPTH in HD; lia.
  - exfalso. rewrite ST in E. unfold finish in E. match type of E with context [match ?m with _ => _ end] => destruct m end; congruence.
  - exfalso. rewrite ST in E. destruct (read_token t (p_env p)); discriminate.
  - exfalso. rewrite ST in E. discriminate.
  - destruct (i_phase I) as [EA|LT]; cycle 1.
    { exfalso. pose proof (i_stk I) as ISTK. pose proof (i_look I) as ILOOK. destruct (late_top (i_ctl I) ISTK (i_ents I) LT) as (tl & ts & [(_ & x0 & EE & SX)|(k & y0 & x' & _ & _ & _ & PL & EE & SX)]);
        rewrite E1, EE in ISTK; cbn in ISTK; injection ISTK as -> ->; [|congruence]. rewrite SX in E3. exact (input_no_reduce ILOOK E3). }
    rewrite ST in E. destruct (act (Z.to_N r1) (map s_val popped) _) as [v e1|e1|u] eqn:EACT; try discriminate E.
    assert (N2 : Z.to_N r1 <> 2%N) by (intro E2'; rewrite E2' in EACT; exact (noerr_act2 EACT)).
    pose proof (i_stk I) as ISTK. pose proof (i_heap I) as IHEAP. rewrite ISTK in E7. destruct (stack_split E7) as (ents1 & EE & EB). rewrite EE in *.
    destruct (Forall2_app_inv_l _ _ (i_ents I)) as (trees1 & tp & F1 & F2 & ET).
    set (e' := set_loc (default_loc popped below) (p_env p)) in *.
    assert (HE : heap e' (fun x => cas x (map s_val popped) + ca x (e_msg e') + (cas x (map s_val ents1) + lca x (p_look p) + cas x (e_stmts e') + lost x + B x))).
    { eapply heap_ext; [exact (heap_loc (default_loc popped below) IHEAP)|]. intro z. cbn beta. rewrite map_app, cas_app. change (e_msg e') with (e_msg (p_env p)). change (e_stmts e') with (e_stmts (p_env p)). lia. }
    assert (TY : typed (map s_val popped) rhs) by (rewrite <- E8; apply typed_of, (ents_typed F2)).
    assert (MO : msg_ok (e_msg e')) by exact (msg_of M0 (i_msg I)).
    assert (N1 : Z.to_N r1 <> 1%N) by lia.
    pose proof (@actions_correct _ _ _ E4 N1 N2 _ _ _ TY MO HE) as AC. rewrite EACT in AC. destruct AC as [EH EM ES' EP ELP]. destruct EH as (lost' & EH & _).
    assert (CL : cleans (pop_error (below :: stk') ;; drop_look (p_look p)) (fun x => cas x (map s_val ents1) + lca x (p_look p)) (quiet (rev ents1))).
    { rewrite EB. eapply cleans_ext.
      - apply cleans_seq; [|apply (drop_look_cleans (i_look I))]. apply pop_error_cleans.
        + apply Forall_rev', (ents_typed F1).
        + eapply ents_rng. rewrite <- EB. eassumption.
        + rewrite <- EB. apply stack_shifts; eassumption.
      - intro y. cbn beta. rewrite map_rev, cas_rev. lia.
      - intro C. now rewrite andb_true_r. }
    destruct (@cleans_run _ _ _ e1 (fun x => ca x (e_msg e1) + lost' x + cas x (e_stmts e1) + lost x + B x) CL) as (e2 & lost2 & E2' & S2 & _ & _).
    { eapply heap_ext; [exact EH|]. intro z. cbn beta. rewrite ES'. lia. }
    change (finish 1 (pop_error (below :: stk') ;; drop_look (p_look p)) e1 = Stop r e) in E. unfold finish in E. rewrite E2' in E. destruct S2 as ((Q1 & _) & _). injection E as _ ->. rewrite Q1, ES'. apply (ea_stmts EA).
  - exfalso. apply AS. pose proof (abs_step I E1 HD E2) as AB. rewrite E4 in AB. exact AB.
Qed.
Lemma run_left n r e : forall p ents b trees lk lost, inv ts0 e0 B p ents b trees lk lost -> run n p = PRet r e ->
  exists a, asteps (abs ents trees lk (p_toks p)) a /\ (astep a = ASyntax -> left_over e0 a e) /\ (r = 0%Z \/ why a r e) /\ (r <> 0%Z -> astep a <> ASyntax -> e_stmts e = e_stmts e0).
Proof.
  induction n as [|n IH]; intros p ents b trees lk lost I E; [discriminate|]. cbn [run] in E. pose proof (inv_step OK0 M0 P0 I) as G.
  destruct (step p) as [p'|r' e'|u] eqn:ST; [|injection E as -> ->|discriminate].
  - cbn [good] in G. destruct G as (ents' & b' & trees' & lk' & lost' & I' & AS). destruct (IH _ _ _ _ _ _ I' E) as (a & A & X). exists a. split; [eapply as_step; eassumption|exact X].
  - exists (abs ents trees lk (p_toks p)). split; [constructor|]. split; [intro AS; eapply left_step; eassumption|]. split; [cbn [good] in G; destruct G as [(-> & _)|(_ & _ & W)]; auto|]. intros R0 AS. eapply left_fail; eassumption.
Qed.
Theorem yyparse_left r e : ends_eof ts0 -> heap e0 (fun x => cas x (e_stmts e0) + B x) -> yyparse ts0 e0 = PRet r e ->
  exists a, asteps (astart ts0) a /\ (astep a = ASyntax -> left_over e0 a e) /\ (r = 0%Z \/ why a r e) /\ (r <> 0%Z -> astep a <> ASyntax -> e_stmts e = e_stmts e0).
Proof.
  intros EE H E. refine (@run_left (parse_fuel (List.length ts0)) r e (parse_init ts0 e0) [] bottom [] [] (fun _ => 0) _ E). now apply inv_init.
Qed.
End Left.

(** ** A list of statements does not end with a semicolon *)
Definition semiless (X : N) : bool := if terminal X then negb (N.eqb X S_semi) else negb (existsb (N.eqb X) [S_accept_; S_input; S_statement_list; S_opt_semicolon]).
(** Nonterminals that may derive nothing. *)
Definition nulls1 (l : list N) : list N := fold_left (fun l p => if existsb (N.eqb (fst (snd p))) l then l else if forallb (fun X => existsb (N.eqb X) l) (snd (snd p)) then fst (snd p) :: l else l) grammar l.
Definition nulls : list N := Eval vm_compute in nulls1 (nulls1 (nulls1 (nulls1 []))).
Definition solid (X : N) : bool := if terminal X then negb (N.eqb X S_semi) else negb (existsb (N.eqb X) (S_accept_ :: S_input :: S_opt_semicolon :: nulls)).
(** The right-hand side, from its end: symbols without semicolon, then one that ends with something else. *)
Fixpoint solid_end (l : list N) : bool := match l with [] => false | X :: l' => if solid X then true else semiless X && solid_end l' end.
Lemma semi_grammar : forallb (fun p => (negb (semiless (fst (snd p))) || forallb semiless (snd (snd p))) && (negb (solid (fst (snd p))) || solid_end (rev (snd (snd p))))) grammar = true.
Proof. vm_compute. reflexivity. Qed.
Lemma derives_rev rhs ts : derives_list rhs ts -> derives_list (rev rhs) (rev ts).
Proof.
  assert (A : forall a u, derives_list a u -> forall b v, derives_list b v -> derives_list (a ++ b) (u ++ v)).
  { intros a. induction a as [|X a IH]; intros u D b v E; inversion D; subst; [exact E|]. cbn [app]. constructor; auto. }
  revert ts. induction rhs as [|X rhs IH]; intros ts D; inversion D; subst; [constructor|]. cbn [rev]. apply A; [auto|]. constructor; [assumption|constructor].
Qed.
Lemma semiless_yield t : forall X, derives X t -> semiless X = true -> forall k, In k (yield t) -> sym_of k <> S_semi.
Proof.
  induction t as [k|r ts IH] using tree_ind2; intros X D S q I.
  - destruct I as [<-|[]]. inversion D; subst. unfold semiless in S. rewrite sym_terminal in S. apply negb_true_iff, N.eqb_neq in S. exact S.
  - inversion D as [|? ? rhs ? P DL]; subst. pose proof (proj1 (forallb_forall _ _) semi_grammar _ (production_mem P)) as C. cbn [fst snd] in C. apply andb_prop in C as [C _]. rewrite S in C. cbn [negb orb] in C.
    cbn [yield] in I. clear -IH DL C I. revert rhs DL C. induction IH as [|t ts H _ IHL]; intros rhs DL C; [destruct I|]. inversion DL as [|Y Ys ? ? D1 D2]; subst. cbn [forallb] in C. apply andb_prop in C as [C1 C2].
    cbn [flat_map] in I. apply in_app_or in I as [I|I]; eauto.
Qed.
Lemma solid_yield t : forall X, derives X t -> solid X = true -> exists l k, yield t = l ++ [k] /\ sym_of k <> S_semi.
Proof.
  induction t as [k|r ts IH] using tree_ind2; intros X D S.
  - exists [], k. split; [reflexivity|]. inversion D; subst. unfold solid in S. rewrite sym_terminal in S. apply negb_true_iff, N.eqb_neq in S. exact S.
  - inversion D as [|? ? rhs ? P DL]; subst. pose proof (proj1 (forallb_forall _ _) semi_grammar _ (production_mem P)) as C. cbn [fst snd] in C. apply andb_prop in C as [_ C]. rewrite S in C. cbn [negb orb] in C.
    apply derives_rev in DL. cbn [yield]. rewrite <- (rev_involutive ts). assert (IH' : Forall (fun t => forall X, derives X t -> solid X = true -> exists l k, yield t = l ++ [k] /\ sym_of k <> S_semi) (rev ts)) by (apply Forall_rev', IH).
    clear -IH' DL C. revert C DL. generalize (rev rhs) as Xs. induction IH' as [|t us H _ IHL]; intros Xs C DL; inversion DL as [|Y Ys ? ? D1 D2]; subst; [discriminate C|]. cbn [solid_end] in C.
    cbn [rev]. rewrite flat_map_app. cbn [flat_map]. rewrite app_nil_r. destruct (solid Y) eqn:SY.
    + destruct (H _ D1 SY) as (l & k & -> & N). exists (flat_map yield (rev us) ++ l), k. rewrite app_assoc. auto.
    + apply andb_prop in C as [C1 C2]. destruct (yield t) as [|k l _] eqn:EY using rev_ind.
      * rewrite app_nil_r. eauto.
      * exists (flat_map yield (rev us) ++ l), k. rewrite app_assoc. split; [reflexivity|]. eapply semiless_yield; [exact D1|exact C1|]. rewrite EY. apply in_app_iff. right. now left.
Qed.

(** ** Stack needed by what is on the stack *)
Lemma need_all_app a : forall b i, need_all (a ++ b) i = Nat.max (need_all a i) (need_all b (i + List.length a)).
Proof.
  induction a as [|u a IH]; intros b i; cbn [app need_all List.length]; [rewrite Nat.add_0_r; pose proof (need_all_pos b i); lia|]. rewrite IH. replace (S i + List.length a) with (i + S (List.length a)) by lia. lia.
Qed.
Lemma need_all_up ts i : forall j, i + need_all ts j <= Nat.max (need_all ts (i + j)) (i + 1).
Proof. induction ts as [|u ts IH]; intro j; cbn [need_all]; [lia|]. specialize (IH (S j)). replace (i + S j) with (S (i + j)) in IH by lia. lia. Qed.
Lemma need_step m a b : ustep a = ACont b -> depth b <= m -> need_all (atrees a) 0 <= m -> need_all (atrees b) 0 <= m.
Proof.
  destruct a as [stk lk toks]. unfold ustep, depth. cbn [a_stk a_look a_toks]. destruct (_ =? _)%Z; [discriminate|]. destruct (decide _ _) as [[|s'|r|]|]; try discriminate.
  - destruct toks; [discriminate|]. intros E L N. injection E as <-. exact N.
  - destruct lk; [|discriminate]. intros E L N. injection E as <-. rewrite atrees_cons, need_all_app. cbn [a_stk List.length need_all need] in *. assert (LT : List.length (atrees (mkA stk None toks)) = List.length stk) by (unfold atrees; cbn [a_stk]; now rewrite rev_length, map_length).
    rewrite LT. unfold atrees in *. cbn [a_stk] in *. lia.
  - destruct (production _) as [[lhs rhs]|]; [|discriminate]. cbv zeta. destruct (goto_of _ _) as [g|]; [|discriminate]. intros E L N. injection E as <-. cbn [a_stk List.length] in L.
    rewrite atrees_cons. rewrite (atrees_split (List.length rhs) stk) in N. rewrite need_all_app in *. cbn [need_all]. rewrite need_node.
    change (atrees (mkA (skipn (List.length rhs) stk) lk toks)) with (rev (map snd (skipn (List.length rhs) stk))) in *. rewrite rev_length, map_length in *. cbn [Nat.add] in *.
    pose proof (need_all_up (map snd (rev (firstn (List.length rhs) stk))) (List.length (skipn (List.length rhs) stk)) 0) as U. rewrite Nat.add_0_r in U. lia.
Qed.
Lemma need_runs m a b : runs m a b -> depth b <= m -> need_all (atrees a) 0 <= m -> need_all (atrees b) 0 <= m.
Proof.
  induction 1 as [a|a x b L E R IH]; intros D N; [exact N|]. apply IH; [exact D|]. eapply need_step; [exact E| |exact N]. inversion R; subst; assumption.
Qed.

(** ** After a semicolon only the end of the input makes the parser stop reading statements *)
Definition semis (t : tree) : bool := match t with Node 354 _ => true | Node 2 [_; Node 354 _] => true | _ => false end.
Definition semi_end (a : astate) : Prop := match a_stk a with (_, t) :: _ => semis t = true -> nxt a = 0%N | [] => True end.
Lemma red354 s x : (0 <= s < 656)%Z -> (0 <= x < 199)%Z -> decide s (Some x) = Some (DReduce 354) -> x = 0%Z.
Proof.
  intros R X D. assert (A : forallb (fun s => forallb (fun x => match decide s (Some x) with Some (DReduce r) => if (r =? 354)%Z then (x =? 0)%Z else true | _ => true end) all_tokens) all_states = true) by (vm_cast_no_check (eq_refl true)).
  assert (I : In s all_states) by (apply zrange_In; lia). assert (J : In x all_tokens) by (apply zrange_In; lia). pose proof (proj1 (forallb_forall _ _) A s I) as C. cbn beta in C.
  pose proof (proj1 (forallb_forall _ _) C x J) as C'. cbn beta in C'. rewrite D in C'. change (354 =? 354)%Z with true in C'. cbn iota in C'. lia.
Qed.
Lemma semi_step ts a b : ainv ts a -> ustep a = ACont b -> semi_end a -> semi_end b.
Proof.
  intros [C _ _] E SE. destruct a as [stk lk toks]. unfold ustep in E. unfold semi_end in *. cbn [a_stk a_look a_toks] in *. destruct (_ =? _)%Z; [discriminate|].
  assert (RG : (0 <= atop stk < 656)%Z) by (pose proof (chain_path C) as HP; destruct stk as [|[s t] stk]; [cbn; lia|exact (path_cons HP)]).
  destruct (decide (atop stk) (atok lk)) as [[|s'|r|]|] eqn:D; try discriminate E.
  - destruct toks as [|t toks]; [discriminate|]. injection E as <-. destruct lk; [destruct (decide_read D)|]. exact SE.
  - destruct lk; [|discriminate]. injection E as <-. cbn [a_stk semis]. discriminate.
  - destruct (production (Z.to_N r)) as [[lhs rhs]|] eqn:P; [|discriminate]. cbv zeta in E. destruct (goto_of _ _) as [g|]; [|discriminate]. injection E as <-. cbn [a_stk]. intro S.
    change (nxt (mkA ?x lk toks)) with (nxt (mkA stk lk toks)). 
    assert (DN : decide (atop stk) (Some (Z.of_N (nxt (mkA stk lk toks)))) = Some (DReduce r) /\ (nxt (mkA stk lk toks) < 199)%N).
    { unfold nxt, pend, alook. cbn [a_look a_toks]. destruct lk as [t|]; cbn [app atok] in *; [split; [exact D|pose proof (sym_Z t); lia]|]. split; [apply (decide_None D); discriminate|]. destruct toks as [|t0 toks]; [lia|pose proof (sym_Z t0); lia]. }
    destruct DN as [DN NS]. assert (RC : r = 354%Z \/ r = 2%Z /\ exists u us, map snd (rev (firstn (List.length rhs) stk)) = [u; Node 354 us]).
    { clear -S. remember (map snd (rev (firstn (List.length rhs) stk))) as l. clear Heql. unfold semis in S. destruct (Z.to_N r) as [|q] eqn:ER; [discriminate|].
      destruct (Pos.eq_dec q 354) as [->|N1]; [left; lia|]. destruct (Pos.eq_dec q 2) as [->|N2].
      - right. split; [lia|]. destruct l as [|u [|v l]]; try discriminate S. destruct v as [|q us]; [destruct l; discriminate S|]. destruct q as [|q]; [destruct l; discriminate S|]. destruct l as [|w l]; [|exfalso; clear -S; repeat (destruct q as [q|q|]; try discriminate S)]. destruct (Pos.eq_dec q 354) as [->|N3]; [exists u, us; reflexivity|].
        exfalso. clear -S N3. repeat (destruct q as [q|q|]; try discriminate S; try congruence).
      - exfalso. clear -S N1 N2. repeat (destruct q as [q|q|]; try discriminate S; try congruence). }
    destruct RC as [->|(-> & u & us & EQ)].
    + assert (Z.of_N (nxt (mkA stk lk toks)) = 0)%Z by (eapply red354; [exact RG|lia|exact DN]). lia.
    + change (Z.to_N 2) with 2%N in P. rewrite production_2 in P. injection P as _ <-. destruct stk as [|[s1 t1] [|[s2 t2] stk]]; try discriminate EQ. cbn in EQ. injection EQ as _ ->. apply SE. reflexivity.
Qed.
Lemma semi_runs ts m a b : runs m a b -> ainv ts a -> semi_end a -> semi_end b.
Proof. induction 1 as [a|a x b L E R IH]; intros AI S; [exact S|]. apply IH; [eapply ainv_step; eassumption|eapply semi_step; eassumption]. Qed.

(** ** What is on the stack when the error is found after a complete script *)
Lemma may_end_0 r : may_end r 0 = true.
Proof.
  unfold may_end. destruct (is_operator r) eqn:O; [|reflexivity]. apply is_operator_In in O.
  assert (A : forallb (fun r => negb (true && extends r 0) || reduce_wins r 0) operators = true) by (vm_compute; reflexivity). exact (proj1 (forallb_forall _ _) A r O).
Qed.
Lemma respects_end t : forall nx, respects t nx = true -> respects t 0 = true.
Proof.
  induction t as [k|r ts IH] using tree_ind2; intros nx R; [reflexivity|]. rewrite respects_node in *. rewrite may_end_0. apply andb_prop in R as [R RA]. apply andb_prop in R as [_ RT]. rewrite RT. cbn [andb].
  clear RT. revert RA. induction IH as [|u us H _ IHL]; intro RA; [reflexivity|]. cbn [respects_all] in *. apply andb_prop in RA as [R1 R2]. rewrite (IHL R2), andb_true_r.
  unfold first_of in *. destruct (yields us); [eapply H; exact R1|exact R1].
Qed.
Lemma dec_19_end : decide 19 (Some 0%Z) = Some (DShift YYFINAL).
Proof. vm_compute. reflexivity. Qed.
Lemma left_input ts a tl semi : asteps (astart ts) a -> astep a = ASyntax -> atrees a = [Node 2 [tl; semi]] ->
  derives S_input (Node 2 [tl; semi]) /\ respects (Node 2 [tl; semi]) 0 = true /\ need (Node 2 [tl; semi]) <= 198 /\ exists l k, yield (Node 2 [tl; semi]) = l ++ [k] /\ sym_of k <> S_semi.
Proof.
  intros H E T. pose proof (asteps_runs H) as R. pose proof (ainv_runs R (ainv_start ts)) as AI. pose proof (semi_runs R (ainv_start ts) I) as SE.
  assert (LA : List.length (a_stk a) < 199) by (unfold astep in E; destruct (Nat.leb_spec 199 (List.length (a_stk a))); [discriminate|assumption]).
  assert (NA : need_all (atrees a) 0 <= 198) by (apply (need_runs R); [unfold depth; lia|cbn; lia]).
  destruct AI as [C X RS]. rewrite T in *. cbn [need_all respects_all] in *. apply andb_prop in RS as [RS _]. change (first_of [] (nxt a)) with (nxt a) in RS.
  assert (DI : derives S_input (Node 2 [tl; semi]) /\ atop (a_stk a) = 19%Z).
  { unfold atrees in T. destruct (a_stk a) as [|[s1 t1] [|]]; [discriminate T| |cbn [map rev] in T; apply (f_equal (@List.length _)) in T; rewrite !app_length in T; cbn in T; lia].
    cbn in T. injection T as ->. cbn in C. destruct C as [(P & N0 & D & _) _]. assert (D' := D). inversion D' as [|? ? ? ? PR DL]; subst. rewrite production_2 in PR. injection PR as EL _. rewrite <- EL in D. split; [exact D|]. cbn [atop].
    apply input_facts; [pose proof (preds_nonempty P); lia|symmetry; exact EL]. }
  destruct DI as [DI TOP]. split; [exact DI|]. split; [eapply respects_end; exact RS|]. split; [lia|].
  inversion DI as [|? ? ? ? PR DL]; subst. rewrite production_2 in PR. injection PR as <-. inversion DL as [|? ? ? ? D1 DL1]; subst. inversion DL1 as [|? ? ? ? D2 _]; subst.
  assert (SY : yield semi = []).
  { inversion D2 as [k EK|r lhs rhs us P DU]; subst.
    - exfalso. pose proof (sym_Z k). rewrite EK in H0. assert (199 <= Z.of_N S_opt_semicolon)%Z by (vm_compute; discriminate). lia.
    - assert (RC : r = 354%N \/ r = 355%N /\ rhs = []).
      { assert (A : forallb (fun p => negb (N.eqb (fst (snd p)) S_opt_semicolon) || N.eqb (fst p) 354 || N.eqb (fst p) 355 && match snd (snd p) with [] => true | _ => false end) grammar = true) by (vm_compute; reflexivity).
        pose proof (proj1 (forallb_forall _ _) A _ (production_mem P)) as Q. cbn [fst snd] in Q. rewrite N.eqb_refl in Q. cbn [negb orb] in Q. destruct (N.eqb_spec r 354); [now left|]. right. destruct (N.eqb_spec r 355); [|discriminate Q]. destruct rhs; [auto|discriminate Q]. }
      destruct RC as [->|[-> ->]]; [|inversion DU; subst; reflexivity]. exfalso.
      assert (NX : nxt a = 0%N). { unfold semi_end in SE. unfold atrees in T. destruct (a_stk a) as [|[s1 t1] l]; [discriminate T|]. cbn [map rev snd] in T. assert (t1 = Node 2 [tl; Node 354 us]) as -> by (apply (f_equal (@rev _)) in T; rewrite rev_app_distr in T; cbn in T; injection T as T _; exact T). apply SE. reflexivity. }
      unfold astep in E. rewrite TOP in E. destruct (199 <=? _); [discriminate|]. change (19 =? YYFINAL)%Z with false in E. unfold nxt, pend in NX. destruct (a_look a) as [k|] eqn:LK.
      + unfold alook in NX. rewrite LK in NX. cbn [app] in NX. cbn [atok] in E. rewrite NX in E. change (Z.of_N 0) with 0%Z in E. rewrite dec_19_end in E. discriminate E.
      + cbn [atok] in E. destruct (decide 19 None) as [[]|] eqn:D19; vm_compute in D19; try discriminate D19. destruct (a_toks a); discriminate E. }
  destruct (solid_yield D1 ltac:(vm_compute; reflexivity)) as (l & k & Y & N). exists l, k. split; [|exact N]. cbn [yield flat_map]. rewrite SY, !app_nil_r. exact Y.
Qed.

(** ** A token that cannot follow is treated like the end of the input *)
Definition next_shift (s x r : Z) : bool :=
  match production (Z.to_N r) with
  | Some (lhs, rhs) =>
    match back (rev rhs) [s] with
    | Some S0 => forallb (fun b => match goto_of b (Z.of_N lhs) with Some g => match decide g (Some x) with Some (DShift _) => negb (g =? YYFINAL)%Z | _ => false end | None => false end) S0
    | None => false
    end
  | None => false
  end.
Definition waits_for (s x : Z) : bool := existsb (fun it => existsb (N.eqb (Z.to_N x)) (after it)) (items s).
Definition same_way (s x : Z) : bool :=
  match decide s (Some 0%Z) with
  | Some (DReduce r) =>
    match decide s (Some x) with
    | Some (DReduce r') => if (r' =? r)%Z then true else if (s =? 70)%Z then true else next_shift s x r'
    | Some (DShift _) => true
    | Some DError => if (s =? 70)%Z then true else waits_for s x
    | _ => false
    end
  | Some (DShift _) => (s =? 19)%Z && match decide s (Some x) with Some DError => true | _ => false end
  | _ => true
  end.
Definition ways (s : Z) : bool := if (s =? YYFINAL)%Z then true else forallb (same_way s) (zrange 198 1).
Lemma ways_checked : forallb ways all_states = true.
Proof. vm_cast_no_check (eq_refl true). Qed.
Lemma ways_at s : (0 <= s < 656)%Z -> ways s = true.
Proof. intro R. assert (I : In s all_states) by (apply zrange_In; lia). exact (proj1 (forallb_forall ways all_states) ways_checked s I). Qed.
Lemma same_way_at s x : ways s = true -> s <> YYFINAL -> (1 <= x < 199)%Z -> same_way s x = true.
Proof. unfold ways. intros W N X. destruct (Z.eqb_spec s YYFINAL); [contradiction|]. apply (proj1 (forallb_forall _ _) W). apply zrange_In. lia. Qed.
Lemma waits_inv s x : waits_for s x = true -> exists it, In it (items s) /\ In (Z.to_N x) (after it).
Proof. unfold waits_for. intro H. apply existsb_exists in H as (it & I & H). apply existsb_exists in H as (X & J & E). apply N.eqb_eq in E. subst X. eauto. Qed.
Lemma atop_range ts a : asteps (astart ts) a -> (0 <= atop (a_stk a) < 656)%Z.
Proof.
  intro H. pose proof (ainv_runs (asteps_runs H) (ainv_start ts)) as [C _ _]. pose proof (chain_path C) as HP. destruct (a_stk a) as [|[s t] l]; [cbn; lia|exact (path_cons HP)].
Qed.
(** A token wanted by an item of the state on top begins a continuation. *)
Lemma wants_begin ts a k it : asteps (astart ts) a -> In it (items (atop (a_stk a))) -> In (sym_of k) (after it) -> begins (yields (atrees a) ++ [k]).
Proof.
  intros H I J. pose proof (ainv_runs (asteps_runs H) (ainv_start ts)) as [C _ _]. rewrite <- lastst_atop in I. pose proof (fits_chain C (ts := []) fits_start I) as F. cbn [app] in F.
  pose proof (after_wanted F J) as W. specialize (W [Leaf k] ltac:(repeat constructor)). unfold atrees. rewrite <- map_rev. exact W.
Qed.
Section Lock.
Variables (ts1 ts2 before after0 : list token) (eof t : token).
Hypothesis KT : sym_of t <> 0%N.
Hypothesis KE : sym_of eof = 0%N.
Hypothesis NB : ~ begins (before ++ [t]).
Hypothesis NS : forall l k, before = l ++ [k] -> sym_of k <> S_semi.
Definition locked (x y : astate) : Prop :=
  Forall2 (ent_sim similar) (a_stk x) (a_stk y) /\ a_look x = Some eof /\ a_look y = Some t /\ a_toks y = after0 /\ yields (atrees y) = before /\ asteps (astart ts1) x /\ asteps (astart ts2) y.
Lemma lock_step x y x1 : locked x y -> astep x = ACont x1 -> atop (a_stk x) = 19%Z \/ exists y1, astep y = ACont y1 /\ locked x1 y1 /\ atop (a_stk x1) <> YYFINAL.
Proof.
  intros (S & LX & LY & TY & YY & AX & AY) E. assert (LEN := Forall2_len S). assert (U := E). unfold astep in U. destruct (Nat.leb_spec 199 (List.length (a_stk x))) as [|LD]; [discriminate|].
  destruct (Z.eqb_spec (atop (a_stk x)) YYFINAL) as [|NF]; [discriminate|]. pose proof (sim_top S) as ET. pose proof (atop_range AX) as RG. pose proof (sym_Z t) as RT.
  pose proof (same_way_at (x := Z.of_N (sym_of t)) (ways_at RG) NF ltac:(lia)) as W. unfold same_way in W. rewrite LX in U. cbn [atok] in U. rewrite KE in U. change (Z.of_N 0) with 0%Z in U.
  destruct (decide (atop (a_stk x)) (Some 0%Z)) as [[|s'|r|]|] eqn:D0; try discriminate U; [destruct (decide_read D0)|left; apply andb_prop in W as [W _]; lia|right].
  assert (N70 : atop (a_stk x) <> 70%Z).
  { intro E70. rewrite ET in E70. pose proof (ainv_runs (asteps_runs AY) (ainv_start ts2)) as [C _ _]. destruct (a_stk y) as [|[s u] l] eqn:ES; [discriminate E70|]. cbn [atop] in E70. subst s.
    cbn [rev] in C. apply chain_app in C as [_ C]. cbn [chain] in C. destruct C as [(_ & _ & D & _) _]. assert (S70 : stos 70 = S_semi) by (vm_compute; reflexivity). rewrite S70 in D. destruct (derives_term D eq_refl) as (k & -> & EK).
    unfold atrees in YY. rewrite ES in YY. cbn [map snd rev] in YY. rewrite Viable.yields_app in YY. cbn [yields flat_map yield app] in YY. symmetry in YY. destruct (NS YY). symmetry. exact EK. }
  assert (LDY : List.length (a_stk y) < 199) by lia. assert (NFY : atop (a_stk y) <> YYFINAL) by congruence.
  assert (DY : forall d, decide (atop (a_stk x)) (Some (Z.of_N (sym_of t))) = d -> decide (atop (a_stk y)) (atok (a_look y)) = d) by (intros d <-; rewrite LY, ET; reflexivity).
  destruct (decide (atop (a_stk x)) (Some (Z.of_N (sym_of t)))) as [[|s'|r'|]|] eqn:DX; try discriminate W.
  - exfalso. apply NB. rewrite <- YY. eapply viable; [exact AY|exact NFY|]. rewrite <- ET. exact DX.
  - specialize (DY _ eq_refl). destruct (Z.eqb_spec r' r) as [->|NR].
    + destruct (production (Z.to_N r)) as [[lhs rhs]|] eqn:P; [|discriminate]. cbv zeta in U. destruct (goto_of (atop (skipn (List.length rhs) (a_stk x))) (Z.of_N lhs)) as [g|] eqn:G; [|discriminate]. injection U as <-.
      assert (EY : astep y = ACont (mkA ((g, Node (Z.to_N r) (map snd (rev (firstn (List.length rhs) (a_stk y))))) :: skipn (List.length rhs) (a_stk y)) (a_look y) (a_toks y))).
      { unfold astep. destruct (Nat.leb_spec 199 (List.length (a_stk y))); [lia|]. destruct (Z.eqb_spec (atop (a_stk y)) YYFINAL); [contradiction|]. rewrite DY, P. cbv zeta. rewrite <- (sim_top (Forall2_skipn S (List.length rhs))), G. reflexivity. }
      eexists. split; [exact EY|].
      assert (AX1 : asteps (astart ts1) (mkA ((g, Node (Z.to_N r) (map snd (rev (firstn (List.length rhs) (a_stk x))))) :: skipn (List.length rhs) (a_stk x)) (Some eof) (a_toks x))) by (eapply asteps_trans; [exact AX|apply asteps_one; exact E]).
      split; [|cbn [a_stk atop]].
      * split; [|split; [reflexivity|]; split; [exact LY|]; split; [exact TY|]; split; [|split; [exact AX1|eapply asteps_trans; [exact AY|apply asteps_one; exact EY]]]].
        -- cbn [a_stk]. constructor; [|apply Forall2_skipn; exact S]. split; [reflexivity|]. cbn [snd]. split; [reflexivity|]. apply similars_Forall2. rewrite !map_rev. apply Forall2_rev, Forall2_snd, Forall2_firstn. exact S.
        -- destruct y as [stk lk toks]. cbn [a_stk a_look a_toks] in *. rewrite atrees_cons, Viable.yields_app. rewrite (atrees_split (List.length rhs) stk), Viable.yields_app in YY. rewrite <- YY. f_equal. unfold yields. cbn [flat_map yield]. now rewrite app_nil_r.
      * pose proof (ainv_runs (asteps_runs AX1) (ainv_start ts1)) as [C _ _]. cbn [a_stk rev] in C. apply chain_app in C as [_ C]. cbn [chain] in C. destruct C as [(_ & _ & D & _) _].
        intro EG. rewrite EG in D. change (stos YYFINAL) with 0%N in D. destruct (derives_term D eq_refl) as (k & EK & _). discriminate EK.
    + destruct (Z.eqb_spec (atop (a_stk x)) 70); [contradiction|]. exfalso. unfold next_shift in W. destruct (production (Z.to_N r')) as [[lhs rhs]|] eqn:P; [|discriminate]. destruct (back (rev rhs) [atop (a_stk x)]) as [S0|] eqn:BK; [|discriminate].
      pose proof (ainv_runs (asteps_runs AY) (ainv_start ts2)) as [C _ _]. pose proof (chain_path C) as HP.
      assert (HT : exists l, map fst (a_stk y) ++ [0%Z] = atop (a_stk y) :: l) by (destruct (a_stk y) as [|[s u] l]; cbn; eauto). destruct HT as (stl & EQ). rewrite EQ, <- ET in HP.
      destruct (back_path BK HP (or_introl eq_refl)) as (b & stk' & E1 & IB & _ & _). rewrite rev_length in E1. pose proof (proj1 (forallb_forall _ _) W b IB) as Q. cbn beta in Q.
      assert (TB : atop (skipn (List.length rhs) (a_stk y)) = b).
      { rewrite ET, <- EQ in E1. clear -E1. revert E1. generalize (a_stk y) as l, (List.length rhs) as n. induction l as [|[s u] l IH]; intros [|n] E1; cbn [map fst app skipn atop] in *; try (injection E1 as <- _; reflexivity).
        - destruct n; discriminate E1.
        - apply IH. exact E1. }
      destruct (goto_of b (Z.of_N lhs)) as [g|] eqn:G; [|discriminate]. destruct (decide g (Some (Z.of_N (sym_of t)))) as [[|s2|r2|]|] eqn:DG; try discriminate Q.
      assert (EY : astep y = ACont (mkA ((g, Node (Z.to_N r') (map snd (rev (firstn (List.length rhs) (a_stk y))))) :: skipn (List.length rhs) (a_stk y)) (a_look y) (a_toks y))).
      { unfold astep. destruct (Nat.leb_spec 199 (List.length (a_stk y))); [lia|]. destruct (Z.eqb_spec (atop (a_stk y)) YYFINAL); [contradiction|]. rewrite DY, P. cbv zeta. rewrite TB, G. reflexivity. }
      assert (AY1 := asteps_trans AY (asteps_one EY)). apply NB. rewrite <- YY. 
      replace (yields (atrees y)) with (yields (atrees (mkA ((g, Node (Z.to_N r') (map snd (rev (firstn (List.length rhs) (a_stk y))))) :: skipn (List.length rhs) (a_stk y)) (a_look y) (a_toks y)))).
      * eapply viable; [exact AY1|cbn [a_stk atop]; lia|exact DG].
      * destruct y as [stk lk toks]. cbn [a_stk a_look a_toks] in *. rewrite atrees_cons, Viable.yields_app, (atrees_split (List.length rhs) stk), Viable.yields_app. f_equal. unfold yields. cbn [flat_map yield]. now rewrite app_nil_r.
  - destruct (Z.eqb_spec (atop (a_stk x)) 70); [contradiction|]. exfalso. apply NB. rewrite <- YY. destruct (waits_inv W) as (it & I & J). rewrite N2Z.id in J. rewrite ET in I. eapply wants_begin; eassumption.
Qed.
Lemma lock_run x c : asteps x c -> astep c = AAccept -> forall y, locked x y -> atop (a_stk x) <> YYFINAL -> exists x0 y0, locked x0 y0 /\ atop (a_stk x0) = 19%Z /\ asteps x0 c.
Proof.
  induction 1 as [x|x x1 c E H IH]; intros A y L NF.
  - exfalso. assert (R : asteps x x) by constructor. destruct (on_path R A NF) as (b & E & _). congruence.
  - destruct (lock_step L E) as [T|(y1 & E1 & L1 & N1)]; [exists x, y; split; [exact L|]; split; [exact T|]; eapply as_step; eassumption|]. eapply IH; eassumption.
Qed.
End Lock.

Lemma last_read a c : asteps a c -> a_toks c = [] -> a_toks a <> [] -> exists x0 k, asteps a x0 /\ a_look x0 = None /\ a_toks x0 = [k] /\ atop (a_stk x0) <> YYFINAL /\ List.length (a_stk x0) < 199 /\ decide (atop (a_stk x0)) None = Some DRead /\ asteps (mkA (a_stk x0) (Some k) []) c.
Proof.
  induction 1 as [a|a b c E H IH]; intros TC TA; [contradiction|]. destruct (a_toks b) as [|k l] eqn:TB.
  - exists a. unfold astep in E. destruct (Nat.leb_spec 199 (List.length (a_stk a))) as [|LD]; [discriminate|]. destruct (Z.eqb_spec (atop (a_stk a)) YYFINAL) as [|NF]; [discriminate|].
    destruct (decide (atop (a_stk a)) (atok (a_look a))) as [[|s'|r|]|] eqn:D; try discriminate E.
    + destruct (a_toks a) as [|t l] eqn:T; [discriminate|]. injection E as <-. cbn [a_toks] in TB. subst l. exists t. destruct (a_look a) as [q|] eqn:LA; [destruct (decide_read D)|]. cbn [atok] in D. split; [constructor|]. auto 10.
    + destruct (a_look a); [|discriminate]. injection E as <-. cbn [a_toks] in TB. contradiction.
    + destruct (production _) as [[lhs rhs]|]; [|discriminate]. cbv zeta in E. destruct (goto_of _ _); [|discriminate]. injection E as <-. cbn [a_toks] in TB. contradiction.
  - destruct (IH TC ltac:(discriminate)) as (x0 & q & X1 & X2). exists x0, q. split; [eapply as_step; eassumption|exact X2].
Qed.
Theorem lock_end before0 before after0 eof t tl semi : ends_eof (before0 ++ [eof]) -> recognises (before0 ++ [eof]) (Node 2 [tl; semi]) eof -> map core before0 = map core before ->
  ~ begins (before ++ [t]) -> (forall l k, before = l ++ [k] -> sym_of k <> S_semi) -> sym_of t <> 0%N ->
  exists y tl' semi', asteps (astart (before ++ t :: after0)) y /\ astep y = ASyntax /\ atrees y = [Node 2 [tl'; semi']] /\ sem tl' 0 = sem tl 0 /\ a_look y = Some t /\ yields (atrees y) = before.
Proof.
  intros EE RC EC NB NS KT. destruct (proj1 (recognises_iff _ _ EE) RC) as (_ & YE & KE & _). apply app_inj_tail in YE as [YE _]. destruct RC as (c & C1 & C2 & C3).
  pose proof (ainv_runs (asteps_runs C1) (ainv_start _)) as [_ TX _]. rewrite C3 in TX. cbn [yields flat_map] in TX. rewrite app_nil_r in TX. change (yield (Leaf eof)) with [eof] in TX. rewrite YE in TX.
  assert (PC : pend c = []) by (rewrite <- (app_nil_r (before0 ++ [eof])) in TX at 2; exact (app_inv_head _ _ _ TX)). assert (TC : a_toks c = []) by (unfold pend in PC; apply app_eq_nil in PC; apply PC).
  destruct (last_read C1 TC ltac:(cbn; destruct before0; discriminate)) as (x0 & k & A0 & L0 & T0 & NF & LD & D0 & AC).
  pose proof (ainv_runs (asteps_runs A0) (ainv_start _)) as [_ TY _]. unfold pend, alook in TY. rewrite L0, T0 in TY. cbn [app] in TY. apply app_inj_tail in TY as [TY ->].
  assert (CE : map core before = map core (yields (atrees x0) ++ alook x0)) by (unfold alook; rewrite L0, app_nil_r, TY; congruence).
  destruct (core_run (t :: after0) A0 CE) as (y0 & B0 & [SB SL] & TB & YB). rewrite L0 in SL. destruct (a_look y0) as [|] eqn:LB; [destruct SL|]. unfold alook in YB. rewrite LB, app_nil_r in YB.
  pose proof (Forall2_len SB) as LEN. pose proof (sim_top SB) as TOP.
  assert (X1 : astep x0 = ACont (mkA (a_stk x0) (Some eof) [])).
  { unfold astep. destruct (Nat.leb_spec 199 (List.length (a_stk x0))); [lia|]. destruct (Z.eqb_spec (atop (a_stk x0)) YYFINAL); [contradiction|]. rewrite L0. cbn [atok]. now rewrite D0, T0. }
  assert (Y1 : astep y0 = ACont (mkA (a_stk y0) (Some t) after0)).
  { unfold astep. rewrite <- LEN, <- TOP. destruct (Nat.leb_spec 199 (List.length (a_stk x0))); [lia|]. destruct (Z.eqb_spec (atop (a_stk x0)) YYFINAL); [contradiction|]. rewrite LB. cbn [atok]. now rewrite D0, TB. }
  assert (LK : locked (before0 ++ [eof]) (before ++ t :: after0) before after0 eof t (mkA (a_stk x0) (Some eof) []) (mkA (a_stk y0) (Some t) after0)).
  { split; [exact SB|]. split; [reflexivity|]. split; [reflexivity|]. split; [reflexivity|]. split; [exact YB|]. split; [exact (asteps_trans A0 (asteps_one X1))|exact (asteps_trans B0 (asteps_one Y1))]. }
  destruct (lock_run KT KE NB NS AC C2 LK NF) as (x & y & (S & LX & LY & TYY & YY & AX & AY) & T19 & XC). clear LK. pose proof (sim_top S) as TT. pose proof (Forall2_len S) as LN.
  destruct (on_path XC C2 ltac:(rewrite T19; discriminate)) as (x2 & E2 & XC2 & LX2).
  assert (EX : x2 = mkA ((YYFINAL, Leaf eof) :: a_stk x) None (a_toks x)).
  { unfold astep in E2. destruct (199 <=? _); [discriminate|]. rewrite T19, LX in E2. change (19 =? YYFINAL)%Z with false in E2. cbn [atok] in E2. rewrite KE in E2. change (Z.of_N 0) with 0%Z in E2. rewrite dec_19_end in E2. now injection E2. }
  assert (CX : c = x2).
  { inversion XC2 as [|? x3 ? E3 _]; subst; [reflexivity|]. exfalso. unfold astep in E3. cbn [a_stk atop] in E3. change (YYFINAL =? YYFINAL)%Z with true in E3. destruct (199 <=? _); discriminate E3. }
  assert (TX0 : atrees x = [Node 2 [tl; semi]]).
  { rewrite CX, EX, atrees_cons in C3. destruct x as [stk lk tk]. unfold atrees in *. cbn [a_stk] in *. change [Node 2 [tl; semi]; Leaf eof] with ([Node 2 [tl; semi]] ++ [Leaf eof]) in C3. now apply app_inj_tail in C3 as [C3 _]. }
  assert (SS : Forall2 similar (atrees x) (atrees y)) by (unfold atrees; apply Forall2_rev; exact (Forall2_snd S)). rewrite TX0 in SS. inversion SS as [|? u ? us S1 S2]; subst. inversion S2; subst.
  destruct u as [|r us]; [destruct S1|]. destruct S1 as [<- S1]. destruct us as [|tl' [|semi' [|]]]; try (cbn in S1; tauto). destruct S1 as [S1 _].
  exists y, tl', semi'. split; [exact AY|]. split; [|split; [congruence|split; [symmetry; exact (similar_sem 0 S1)|split; [exact LY|congruence]]]].
  unfold astep. rewrite <- TT, T19. destruct (Nat.leb_spec 199 (List.length (a_stk y))); [lia|]. change (19 =? YYFINAL)%Z with false. rewrite LY. cbn [atok]. pose proof (sym_Z t) as RT.
  assert (W : same_way 19 (Z.of_N (sym_of t)) = true) by (apply same_way_at; [apply ways_at; lia|discriminate|lia]). unfold same_way in W. rewrite dec_19_end in W. apply andb_prop in W as [_ W].
  destruct (decide 19 _) as [[]|]; try discriminate W. reflexivity.
Qed.
