(** Results of the parser: every round keeps the invariant, and the ends of a run.  No code of /repo. *)
From Verif Require Export InvStep.
From Coq Require Import ZifyBool ZifyNat ZifyN.
Local Open Scope nat_scope.
Set Implicit Arguments.
Unset Strict Implicit.

(** ** Outcomes *)
(** The input is derivable and its statements are in the result. *)
Definition accepted_as (tl ts : tree) (k : token) (ts0 : list token) (e0 : env) (B : N -> nat) (e : env) : Prop :=
  exists lost, derives S_input (Node 2 [tl; ts]) /\ yield tl ++ yield ts ++ [k] = ts0 /\ sym_of k = 0%N /\
    err_eq e0 e /\ result_of e0 tl e /\ heap e (fun x => cas x (e_stmts e) + lost x + B x) /\
    lost_blocks lost (leak_count tl).
Definition accepted (ts0 : list token) (e0 : env) (B : N -> nat) (e : env) : Prop := exists tl ts k, accepted_as tl ts k ts0 e0 B e.
(** A message was set; statements are untouched, or (error after the last action) those of a derivable beginning. *)
Definition rejected (ts0 : list token) (e0 : env) (B : N -> nat) (e : env) : Prop :=
  err_at ts0 e /\
  (e_stmts e = e_stmts e0 /\ e_params e = e_params e0 \/
   exists tl ts rest, derives S_input (Node 2 [tl; ts]) /\ yield tl ++ yield ts ++ rest = ts0 /\ result_of e0 tl e) /\
  exists lost, heap e (fun x => ca x (e_msg e) + cas x (e_stmts e) + lost x + B x) /\ (clean ts0 = true -> forall x, lost x = 0).
(** The only undefined behaviour: overflow of a number in an interval literal. *)
Definition interval_overflow (ts0 : list token) (u : ub) : Prop :=
  u = UScanf /\ exists t s, In t ts0 /\ sym_of t = S_STRING /\ t_val t = TVStr s /\ (scan_interval1 s = SUB \/ scan_interval2 s = SUB).
(** Where it happens: the next reduction of the machine of Abs.v makes an interval literal of the string. *)
Definition overflows (a : astate) : Prop :=
  exists a' trees r i k tp s, astep a = ACont a' /\ atrees a' = trees ++ [Node r (Leaf i :: Leaf k :: tp)] /\ sym_of i = S_INTERVAL /\ sym_of k = S_STRING /\
    t_val k = TVStr s /\ (r = 296%N /\ scan_interval1 s = SUB \/ r = 297%N /\ scan_interval2 s = SUB).

(** The machine of Abs.v in the same situation. *)
Definition abs (ents : list entry) (trees : list tree) (lk toks : list token) : astate := mkA (combine (map s_state (rev ents)) (rev trees)) (hd_error lk) toks.
(** The error is at the token read last. *)
Definition at_last (ts : list token) (e : env) : Prop := exists l t, ts = l ++ [t] /\ e_line e = VInt (fl (t_pos t)) /\ e_col e = VInt (fc (t_pos t)).
(** Why a parse fails: stack full, syntax error, or a semantic check. *)
Definition why (a : astate) (r : Z) (e : env) : Prop :=
  r = 2%Z /\ astep a = AExhausted /\ (exists x, e_msg e = VStr x err_exhausted) /\ at_last (yields (atrees a) ++ alook a) e \/
  r = 1%Z /\ astep a = ASyntax /\ (exists x, e_msg e = VStr x (syntax_message (atop (a_stk a)) (atok (a_look a)))) /\ a_look a <> None /\ at_last (yields (atrees a) ++ alook a) e \/
  r = 1%Z /\ exists a', astep a = ACont a' /\ sems (atrees a') 0 = None.

Lemma yyerror_at_eq l c m e F : heap e F -> exists e', yyerror_at l c m e = ROk tt e' /\
  heap e' (fun x => ca x (e_msg e') + F x) /\ rest_eq e e' /\ e_valid e' = false /\ (exists a, e_msg e' = VStr a m) /\ e_line e' = VInt l /\ e_col e' = VInt c.
Proof.
  intro H. destruct (alloc_spec H) as (_ & e' & E & H' & S). unfold yyerror_at, snew, bind. rewrite E. unfold ret.
  eexists. split; [reflexivity|]. destruct S as ((S1 & S2 & S3 & S4 & S5) & S6). split; [destruct H'; constructor; assumption|].
  repeat split; cbn; auto. eauto.
Qed.
Lemma last_pos_app a t : last_pos (a ++ [t]) = (fl (t_pos t), fc (t_pos t), ll (t_pos t), lc (t_pos t)).
Proof. unfold last_pos. rewrite rev_app_distr. reflexivity. Qed.
Lemma result_same e0 tl e e' : result_of e0 tl e -> e_stmts e' = e_stmts e -> e_params e' = e_params e -> e_plist e' = e_plist e -> result_of e0 tl e'.
Proof. intros [A C] E1 E2 E3. constructor; rewrite ?E1, ?E2, ?E3; assumption. Qed.
Lemma error_end ts0 e0 B p ents b trees lk lost r msg m c : inv ts0 e0 B p ents b trees lk lost -> yields trees ++ lk <> [] ->
  cleans m (fun x => cas x (map s_val ents) + lca x (p_look p)) c -> e_msg e0 = VNull -> (clean ts0 = true -> c = true) ->
  exists e', finish r (yyerror_at (fl (e_lpos (p_env p))) (fc (e_lpos (p_env p))) msg ;; m) (p_env p) = Stop r e' /\ rejected ts0 e0 B e' /\ (exists x, e_msg e' = VStr x msg) /\ at_last (yields trees ++ lk) e'.
Proof.
  intros I NE CL M0 CC. pose proof I as I'. destruct I' as [ICTL ISTK IENTS ILOOK ITOKS IPOS IHEAP IFIRST ILOST IMSG IPH].
  destruct (yyerror_at_eq (fl (e_lpos (p_env p))) (fc (e_lpos (p_env p))) msg IHEAP) as (e1 & E1 & H1 & (R1 & R2 & R3 & R4 & R5) & V1 & M1 & L1 & C1).
  destruct (@cleans_run m _ c e1 (fun x => ca x (e_msg e1) + (ca x (e_msg (p_env p)) + cas x (e_stmts (p_env p)) + lost x + B x)) CL) as (e2 & lost2 & E2 & S2 & H2 & LZ).
  { eapply heap_ext; [exact H1|]. intro x. cbn beta. lia. }
  destruct S2 as ((Q1 & Q2 & Q3 & Q4 & Q5) & (Q6 & Q7 & Q8 & Q9)).
  exists e2. unfold finish, bind. rewrite E1, E2. split; [reflexivity|]. split; [|split; [rewrite Q7; exact M1|]].
  2:{ destruct (exists_last NE) as (l & t & EL). exists l, t. rewrite EL, last_pos_app in IPOS. injection IPOS as I1 I2 _ _. split; [exact EL|]. rewrite Q8, Q9, L1, C1, I1, I2. auto. }
  split; [|split].
  - split; [congruence|]. split; [rewrite Q7; destruct M1 as [a0 M1]; eauto|]. rewrite Q8, Q9, L1, C1. eexists _, _. split; [|split; reflexivity].
    destruct (exists_last NE) as (l & t & EL). rewrite EL, last_pos_app in IPOS. injection IPOS as -> -> _ _.
    rewrite <- ITOKS. unfold starts. apply in_map_iff. exists t. split; [reflexivity|]. rewrite app_assoc, EL, !in_app_iff. left. right. now left.
  - destruct IPH as [EA|(tl & ts & rest & ET & _ & RO & _)].
    + left. rewrite Q1, Q2, R1, R2. split; [apply (ea_stmts EA)|apply (ea_params EA)].
    + right. exists tl, ts, (yields rest ++ lk ++ p_toks p). subst trees. inversion IENTS as [|x0 ? ents' ? EN1 EN2]; subst. split; [|split].
      * pose proof (en_tree EN1) as D. rewrite (derives_input D) in D. exact D.
      * cbn [yields flat_map yield]. rewrite app_nil_r, <- !app_assoc. reflexivity.
      * eapply result_same; [exact RO|congruence..].
  - exists (fun x => lost2 x + ca x (e_msg (p_env p)) + lost x). split.
    + eapply heap_ext; [exact H2|]. intro x. cbn beta. rewrite Q7, Q1, R1. lia.
    + intros C x. destruct (clean_stack I M0 C) as (MN & _ & L0). rewrite (LZ (CC C)), MN, L0. reflexivity.
Qed.
Lemma quiet_rev l : (forall x, In x l -> tidy x = true) -> quiet (rev l) = true.
Proof. intro H. apply forallb_forall. intros x I. apply H. now apply in_rev. Qed.
Lemma ents_rng l b : path (states (rev l ++ [b])) -> Forall (fun x => (0 <= s_state x < 656)%Z) (rev l).
Proof.
  intro P. unfold states in P. rewrite map_app in P. apply path_all in P. apply Forall_app in P as [P _]. rewrite Forall_map in P. exact P.
Qed.
Lemma Forall_rev' A (P : A -> Prop) l : Forall P l -> Forall P (rev l).
Proof. apply Forall_rev. Qed.
Lemma stack_shifts stk : path (states stk) -> match stk with x :: _ => s_state x <> YYFINAL | [] => True end ->
  Forall (fun x => error_shift (s_state x) = Some false) stk.
Proof.
  intros P N. destruct stk as [|x stk]; [constructor|]. pose proof (path_all P) as R. unfold states in *. cbn [map] in *. pose proof (path_nonfinal P) as NF.
  inversion R; subst. constructor; [apply no_error_shift; assumption|].
  rewrite Forall_map in *. rewrite Forall_forall in *. intros y Y. apply no_error_shift; auto. 
Qed.

Lemma path_pred s l : path (s :: l) -> s <> 0%Z -> exists b l', l = b :: l' /\ In b (preds s).
Proof. inversion 1; subst; [congruence|eauto]. Qed.

Lemma heap_loc l e f : heap e f -> heap (set_loc l e) f.
Proof. intros [A C D]. constructor; assumption. Qed.

Section Step.
Variables (ts0 : list token) (e0 : env) (B : N -> nat).
Hypothesis OK0 : Forall tok_ok ts0.
Hypothesis M0 : e_msg e0 = VNull.
Hypothesis P0 : e_params e0 = [].
Definition good (a : astate) (o : out) : Prop :=
  match o with
  | Cont p => exists ents b trees lk lost, inv ts0 e0 B p ents b trees lk lost /\ astep a = ACont (abs ents trees lk (p_toks p))
  | Stop r e => (r = 0%Z /\ astep a = AAccept /\ exists tl ts k, accepted_as tl ts k ts0 e0 B e /\ atrees a = [Node 2 [tl; ts]; Leaf k]) \/ ((r = 1 \/ r = 2)%Z /\ rejected ts0 e0 B e /\ why a r e)
  | Undef u => (interval_overflow ts0 u /\ overflows a) /\ exists a', astep a = ACont a' /\ sems (atrees a') 0 = None
  end.
Lemma abs_trees ents trees lk toks : List.length ents = List.length trees -> atrees (abs ents trees lk toks) = trees.
Proof.
  intro L. unfold atrees, abs. cbn [a_stk]. assert (E : forall (l : list Z) (m : list tree), List.length l = List.length m -> map snd (combine l m) = m).
  { induction l as [|x l IH]; intros [|y m] LL; try discriminate LL; [reflexivity|]. cbn [combine map snd]. f_equal. apply IH. now injection LL. }
  rewrite E, rev_involutive; [reflexivity|]. rewrite map_length, !rev_length. exact L.
Qed.
Lemma abs_look l lk : look_ok l lk -> atok (hd_error lk) = tok_of l /\ alook (mkA [] (hd_error lk) []) = lk.
Proof.
  destruct l as [[c v]|], lk as [|t [|]]; cbn [look_ok]; try contradiction; [|auto]. intros (-> & _). cbn [hd_error atok tok_of]. split; [|reflexivity].
  destruct (yytranslate_range (@code_range t)) as (y & E & R & _ & EY). rewrite sym_code in EY. rewrite E. f_equal. lia.
Qed.
Lemma abs_len ents trees lk toks : List.length ents = List.length trees -> List.length (a_stk (abs ents trees lk toks)) = List.length ents.
Proof. intro L. unfold abs. cbn [a_stk]. rewrite combine_length, map_length, !rev_length. lia. Qed.
Lemma abs_top p ents b trees lk lost x stk : inv ts0 e0 B p ents b trees lk lost -> p_stk p = x :: stk -> atop (a_stk (abs ents trees lk (p_toks p))) = s_state x.
Proof.
  intros I ES. pose proof (Forall2_len (i_ents I)) as L. pose proof (i_stk I) as K. rewrite ES in K. destruct (i_ctl I) as [CP _]. rewrite ES in CP. unfold abs. cbn [a_stk].
  destruct ents as [|y ents _] using rev_ind.
  - destruct trees; [|discriminate L]. cbn in K |- *. injection K as <- ->. symmetry. apply (@path_bottom [] (s_state x) CP).
  - destruct trees as [|t trees _] using rev_ind; [rewrite app_length in L; cbn in L; lia|]. rewrite !rev_app_distr in *. cbn [rev app map combine atop] in *. now injection K as -> _.
Qed.
Lemma abs_step p ents b trees lk lost x stk : inv ts0 e0 B p ents b trees lk lost -> p_stk p = x :: stk -> List.length (p_stk p) < YYINITDEPTH -> s_state x <> YYFINAL ->
  astep (abs ents trees lk (p_toks p)) = let a := abs ents trees lk (p_toks p) in match decide (s_state x) (tok_of (p_look p)) with
  | None => AStuck
  | Some DRead => match a_toks a with t :: ts => ACont (mkA (a_stk a) (Some t) ts) | [] => AStuck end
  | Some (DShift s') => match a_look a with Some t => ACont (mkA ((s', Leaf t) :: a_stk a) None (a_toks a)) | None => AStuck end
  | Some (DReduce r) =>
    match production (Z.to_N r) with
    | None => AStuck
    | Some (lhs, rhs) =>
      let n := List.length rhs in
      let rest := skipn n (a_stk a) in
      match goto_of (atop rest) (Z.of_N lhs) with
      | Some g => ACont (mkA ((g, Node (Z.to_N r) (map snd (rev (firstn n (a_stk a))))) :: rest) (a_look a) (a_toks a))
      | None => AStuck
      end
    end
  | Some DError => ASyntax
  end.
Proof.
  intros I ES D NF. unfold astep. rewrite (abs_top I ES). assert (LN : 199 <=? List.length (a_stk (abs ents trees lk (p_toks p))) = false).
  { rewrite abs_len by apply (Forall2_len (i_ents I)). rewrite (i_stk I), app_length, rev_length in D. cbn in D. unfold YYINITDEPTH in D. lia. }
  rewrite LN. assert (NE : (s_state x =? YYFINAL)%Z = false) by lia. rewrite NE. cbn [a_look abs]. rewrite (proj1 (abs_look (i_look I))). reflexivity.
Qed.
Lemma abs_exhausted p ents b trees lk lost : inv ts0 e0 B p ents b trees lk lost -> YYINITDEPTH <= List.length (p_stk p) -> astep (abs ents trees lk (p_toks p)) = AExhausted.
Proof.
  intros I D. unfold astep. assert (LN : 199 <=? List.length (a_stk (abs ents trees lk (p_toks p))) = true).
  { rewrite abs_len by apply (Forall2_len (i_ents I)). rewrite (i_stk I), app_length, rev_length in D. cbn in D. unfold YYINITDEPTH in D. lia. }
  now rewrite LN.
Qed.
Lemma abs_alook ents trees l lk toks : look_ok l lk -> alook (abs ents trees lk toks) = lk.
Proof. intro L. exact (proj2 (abs_look L)). Qed.

Lemma good_exhausted p ents b trees lk lost : inv ts0 e0 B p ents b trees lk lost -> (YYINITDEPTH <= List.length (p_stk p)) ->
  good (abs ents trees lk (p_toks p)) (finish 2 (yyerror_at (fl (e_lpos (p_env p))) (fc (e_lpos (p_env p))) err_exhausted ;; drop_look (p_look p) ;; pop_all (p_stk p)) (p_env p)).
Proof.
  intros I D. destruct (@error_end ts0 e0 B p ents b trees lk lost 2 err_exhausted (drop_look (p_look p) ;; pop_all (p_stk p)) (quiet (rev ents)) I) as (e' & E & R).
  - intro E. apply (i_first I) in E. rewrite (i_stk I), E in D. cbn in D. unfold YYINITDEPTH in D. lia.
  - rewrite (i_stk I). eapply cleans_ext.
    + apply cleans_seq; [apply (drop_look_cleans (i_look I))|]. apply pop_all_cleans.
      * apply Forall_rev', (ents_typed (i_ents I)).
      * eapply ents_rng. rewrite <- (i_stk I). apply (i_ctl I).
    + intro x. rewrite map_rev, cas_rev. lia.
    + auto.
  - exact M0.
  - intro C. apply quiet_rev. now apply (clean_stack I M0 C).
  - rewrite E. cbn [good]. right. destruct R as (R & R1 & R2). split; [now right|]. split; [exact R|]. left. split; [reflexivity|]. split; [exact (abs_exhausted I D)|]. split; [exact R1|].
    rewrite (abs_trees _ _ (Forall2_len (i_ents I))), (abs_alook _ _ _ (i_look I)). exact R2.
Qed.
Lemma good_error p ents b trees lk lost x stk : inv ts0 e0 B p ents b trees lk lost -> List.length (p_stk p) < YYINITDEPTH -> p_stk p = x :: stk -> s_state x <> YYFINAL -> p_look p <> None -> decide (s_state x) (tok_of (p_look p)) = Some DError -> let msg := syntax_message (s_state x) (tok_of (p_look p)) in
  good (abs ents trees lk (p_toks p)) (finish 1 (yyerror_at (fl (e_lpos (p_env p))) (fc (e_lpos (p_env p))) msg ;; pop_error (p_stk p) ;; drop_look (p_look p)) (p_env p)).
Proof.
  intros I LD ES NF NL DE msg. destruct (@error_end ts0 e0 B p ents b trees lk lost 1 msg (pop_error (p_stk p) ;; drop_look (p_look p)) (quiet (rev ents)) I) as (e' & E & R).
  - intro E. apply app_eq_nil in E as [_ ->]. pose proof (i_look I) as L. destruct (p_look p) as [[]|]; [destruct L|congruence].
  - rewrite (i_stk I). eapply cleans_ext.
    + apply cleans_seq; [|apply (drop_look_cleans (i_look I))]. apply pop_error_cleans.
      * apply Forall_rev', (ents_typed (i_ents I)).
      * eapply ents_rng. rewrite <- (i_stk I). apply (i_ctl I).
      * rewrite <- (i_stk I). apply stack_shifts; [apply (i_ctl I)|]. now rewrite ES.
    + intro y. rewrite map_rev, cas_rev. lia.
    + intro C. now rewrite andb_true_r.
  - exact M0.
  - intro C. apply quiet_rev. now apply (clean_stack I M0 C).
  - rewrite E. cbn [good]. right. destruct R as (R & R1 & R2). split; [now left|]. split; [exact R|]. right. left. split; [reflexivity|]. split; [rewrite (abs_step I ES LD NF), DE; reflexivity|]. split.
    { destruct R1 as [z R1]. exists z. rewrite R1. unfold msg. rewrite (abs_top I ES). cbn [a_look abs]. now rewrite (proj1 (abs_look (i_look I))). }
    split; [intro Z; pose proof (proj1 (abs_look (i_look I))) as K; cbn [a_look abs] in Z; rewrite Z in K; pose proof (i_look I) as LK; destruct (p_look p) as [[c v]|]; [|congruence]; destruct lk; [destruct LK|discriminate Z]|].
    rewrite (abs_trees _ _ (Forall2_len (i_ents I))), (abs_alook _ _ _ (i_look I)). exact R2.
Qed.
Lemma good_read p ents b trees lk lost x stk t ts : inv ts0 e0 B p ents b trees lk lost -> List.length (p_stk p) < YYINITDEPTH -> p_stk p = x :: stk -> s_state x <> YYFINAL ->
  p_look p = None -> p_toks p = t :: ts -> decide (s_state x) None = Some DRead -> ctl p -> step p = (match read_token t (p_env p) with
                 | ROk l e' => Cont (mkP (p_stk p) (Some l) ts e') | RErr _ => Undef UTable | RUB u => Undef u end) -> good (abs ents trees lk (p_toks p)) (step p).
Proof.
  intros I LD ES NF EL ET DE CT EQ. pose proof (abs_step I ES LD NF) as AS. rewrite EL in AS. cbn [tok_of] in AS. rewrite DE in AS. cbn zeta in AS. cbn [a_toks abs] in AS. rewrite ET in AS. pose proof (i_look I) as LK. rewrite EL in LK. destruct lk as [|]; [|destruct LK].
  assert (IT : In t ts0) by (rewrite <- (i_toks I), ET, !in_app_iff; right; right; now left).
  assert (TK : tok_ok t) by (pose proof OK0 as O; rewrite Forall_forall in O; auto).
  destruct (read_token_ok TK (i_heap I)) as (v & e' & R & W & ER & CP & H & (V1 & V2 & V3 & V4) & S1 & S2 & S3 & S4).
  rewrite R in EQ. rewrite EQ. cbn [good]. exists ents, b, trees, [t], lost. rewrite <- ET in AS at 1. split; [|exact AS]. clear AS.
  destruct I as [ICTL ISTK IENTS ILOOK ITOKS IPOS IHEAP IFIRST ILOST IMSG IPH].
  constructor; cbn [p_stk p_look p_toks p_env].
  - apply (ctl_step ICTL EQ).
  - exact ISTK.
  - exact IENTS.
  - cbn [look_ok]. auto.
  - rewrite <- ITOKS, ET. reflexivity.
  - rewrite last_pos_app, S4. reflexivity.
  - eapply heap_ext; [exact H|]. intro y. cbn beta. rewrite EL, V2, S1. cbn [lca]. lia.
  - intro E. apply app_eq_nil in E as [_ E]. discriminate E.
  - rewrite V2. exact ILOST.
  - destruct IMSG as [IM|[(IM1 & IM2 & IM3) IC]]; [left; unfold err_eq in *; intuition congruence|right]. split; [|exact IC].
    unfold err_at. rewrite V1, V2, V3, V4. auto.
  - destruct IPH as [EA|(tl & ts1 & rest & ET' & MN & RO & RS)]; [left|right].
    + destruct EA as [A1 A2 A3 A4 A5 A6]. constructor; [exact A1|congruence|congruence| |rewrite V2, S3; exact A5|rewrite V2; exact A6]. intro q. rewrite A4. unfold listed. now rewrite S3.
    + exists tl, ts1, rest. split; [exact ET'|]. cbn [p_env p_toks p_look]. split; [congruence|]. split; [eapply result_same; eassumption|].
      destruct RS as [->|(_ & PT & _)]; [now left|]. exfalso. congruence.
Qed.
Lemma top_of ents b (x : entry) stk : rev ents ++ [b] = x :: stk -> ents = [] /\ x = b /\ stk = [] \/ exists ents', ents = ents' ++ [x] /\ stk = rev ents' ++ [b].
Proof.
  intro E. destruct ents as [|y ents _] using rev_ind; [left; injection E; auto|right]. exists ents. rewrite rev_app_distr in E. cbn in E. injection E as -> <-. auto.
Qed.
Lemma late_top p ents b trees : ctl p -> p_stk p = rev ents ++ [b] -> Forall2 ent ents trees -> late e0 p trees ->
  exists tl ts, trees = [Node 2 [tl; ts]] /\ (exists x, ents = [x] /\ s_state x = 19%Z) \/
                exists k y x, trees = [Node 2 [tl; ts]; Leaf k] /\ sym_of k = 0%N /\ p_toks p = [] /\ p_look p = None /\ ents = [y; x] /\ s_state x = YYFINAL.
Proof.
  intros CT ES F (tl & ts & rest & -> & _ & _ & RS). inversion F as [|y ? ents' ? E1 E2]; subst. exists tl, ts. destruct CT as [CP _]. rewrite ES in CP.
  destruct RS as [->|((k & -> & SK) & PT & PL)]; inversion E2 as [|x ? ents'' ? E3 E4]; subst.
  - left. split; [reflexivity|]. exists y. split; [reflexivity|]. cbn in CP. apply input_facts; [apply (path_cons CP)|]. apply (derives_input (en_tree E1)).
  - right. inversion E4; subst. exists k, y, x. repeat split; auto. cbn in CP. assert (S0 : stos (s_state x) = 0%N) by (rewrite <- SK; apply (derives_leaf (en_tree E3))).
    destruct (stos_final (path_cons CP) S0) as [Z|Z]; [|exact Z]. exfalso. inversion CP; congruence.
Qed.
Lemma good_accept p ents b trees lk lost x stk : inv ts0 e0 B p ents b trees lk lost -> List.length (p_stk p) < YYINITDEPTH -> p_stk p = x :: stk -> s_state x = YYFINAL ->
  good (abs ents trees lk (p_toks p)) (finish 0 (drop_look (p_look p) ;; pop_all (p_stk p)) (p_env p)).
Proof.
  intros I LD ES EF. pose proof I as I'. assert (AS : astep (abs ents trees lk (p_toks p)) = AAccept).
  { unfold astep. rewrite (abs_top I ES), EF. cbn [Z.eqb]. assert (LN : 199 <=? List.length (a_stk (abs ents trees lk (p_toks p))) = false).
    { rewrite abs_len by apply (Forall2_len (i_ents I)). rewrite (i_stk I), app_length, rev_length in LD. cbn in LD. unfold YYINITDEPTH in LD. lia. }
    rewrite LN. reflexivity. } destruct I' as [ICTL ISTK IENTS ILOOK ITOKS IPOS IHEAP IFIRST ILOST IMSG IPH]. destruct IPH as [EA|LT].
  - exfalso. destruct ICTL as [CP _]. pose proof ISTK as IS. rewrite ES in IS. symmetry in IS.
    assert (B0 : s_state b = 0%Z). { rewrite ISTK in CP. unfold states in CP. rewrite map_app in CP. apply (path_bottom CP). }
    destruct (top_of IS) as [(-> & -> & ->)|(ents' & -> & ->)]; [rewrite B0 in EF; discriminate EF|].
    rewrite ES in CP. unfold states in CP. cbn [map] in CP. rewrite EF in CP. destruct (path_pred CP) as (s & l & E & IP); [discriminate|].
    assert (P19 : preds YYFINAL = [19%Z]) by (vm_compute; reflexivity). rewrite P19 in IP. destruct IP as [<-|[]].
    destruct ents' as [|y ents' _] using rev_ind; [cbn in E; rewrite B0 in E; discriminate E|]. rewrite rev_app_distr in E. cbn [rev app map] in E. injection E as E _.
    pose proof (ea_ents EA) as NI. rewrite Forall_forall in NI. specialize (NI y). rewrite !in_app_iff in NI.
    apply NI; [left; right; now left|]. unfold sym. rewrite E. vm_compute. reflexivity.
  - destruct (late_top ICTL ISTK IENTS LT) as (tl & ts & [(-> & y & -> & SY)|(k & y & x' & ET & SK & PT & PL & EE & SX)]).
    { exfalso. rewrite ES in ISTK. cbn in ISTK. injection ISTK as -> ->. rewrite SY in EF. discriminate EF. }
    destruct LT as (tl' & ts' & rest & ET' & MN & RO & _). rewrite ET in ET'. injection ET' as <- <- <-.
    rewrite PL. unfold finish. assert (CL : cleans (drop_look None ;; pop_all (p_stk p)) (fun x => cas x (map s_val ents)) (quiet (rev ents))).
    { rewrite ISTK. eapply cleans_ext with (c := true && quiet (rev ents)).
      - apply (@cleans_seq (drop_look None) (pop_all (rev ents ++ [b])) (fun _ => 0) (fun y => cas y (map s_val (rev ents))) true (quiet (rev ents))); [apply cleans_ret; reflexivity|]. apply pop_all_cleans.
        + apply Forall_rev', (ents_typed IENTS).
        + eapply ents_rng. rewrite <- ISTK. apply ICTL.
      - intro z. rewrite map_rev, cas_rev. reflexivity.
      - auto. }
    destruct (@cleans_run _ _ _ (p_env p) (fun x => ca x (e_msg (p_env p)) + cas x (e_stmts (p_env p)) + lost x + B x) CL) as (e2 & lost2 & E2 & S2 & H2 & LZ).
    { eapply heap_ext; [exact IHEAP|]. intro z. cbn beta. rewrite PL. cbn [lca]. lia. }
    rewrite E2. cbn [good]. left. split; [reflexivity|]. split; [exact AS|]. clear AS. subst ents trees. inversion IENTS as [|? ? ? ? EN1 EN2]; subst. inversion EN2 as [|? ? ? ? EN3 EN4]; subst.
    destruct S2 as ((Q1 & Q2 & Q3 & Q4 & Q5) & Q6).
    exists tl, ts, k. split; [|reflexivity]. exists (fun x => lost2 x + lost x). split; [|split; [|split; [|split; [|split; [|split]]]]].
    + pose proof (en_tree EN1) as D. rewrite (derives_input D) in D. exact D.
    + rewrite PT. cbn [yields flat_map yield]. pose proof ILOOK as L. rewrite PL in L. destruct lk; [|destruct L]. rewrite !app_nil_r, <- !app_assoc. reflexivity.
    + exact SK.
    + destruct IMSG as [IM|[(_ & (a & s & IM2) & _) _]]; [eapply err_eq_trans; eassumption|]. rewrite MN in IM2. discriminate IM2.
    + eapply result_same; eassumption.
    + eapply heap_ext; [exact H2|]. intro z. cbn beta. rewrite MN, Q1. cbn [ca]. lia.
    + eapply lost_blocks_ext; [exact (ILOST MN)|intro z; cbn beta; rewrite LZ; [reflexivity|]|].
      2:{ unfold leak_sum. cbn [map leak_count list_sum fold_right]. change (leak_here 2 [tl; ts]) with 0. pose proof (en_tree EN1) as D. rewrite (derives_input D) in D. inversion D as [|? ? ? ? P DL]; subst. rewrite production_2 in P. injection P as <-.
        inversion DL as [|? ? ? ? D1 DL1]; subst. inversion DL1 as [|? ? ? ? D2 DL2]; subst. 
        assert (LS : leak_free ts = true); [|rewrite (leak_free_count LS); lia]. clear -D2. inversion D2 as [|r ? rhs tts P DL E]; subst; [reflexivity|].
        assert (A : forallb (fun p => negb (N.eqb (fst (snd p)) S_opt_semicolon) || (negb (N.eqb (fst p) 274) && negb (N.eqb (fst p) 58) && forallb (fun Y => N.ltb Y 199) (snd (snd p)))) grammar = true) by (vm_compute; reflexivity).
        rewrite forallb_forall in A. apply production_In in P. specialize (A _ P). cbn [fst snd] in A. rewrite N.eqb_refl in A. cbn [negb orb] in A.
        apply andb_prop in A as [A1 A2]. apply andb_prop in A1 as [A0 A1]. cbn [leak_free]. rewrite A0, A1. cbn [andb orb].
        clear -DL A2. revert tts DL. induction rhs as [|Y rhs IH]; intros tts DL; inversion DL as [|? ? t tts' DT DL']; subst; [reflexivity|].
        cbn [forallb] in *. apply andb_prop in A2 as [AY A2]. destruct (derives_terminal DT) as (k & -> & _); [lia|]. cbn. auto. }
      change (tidy x' && (tidy y && true) = true). unfold tidy.
      rewrite (derives_leaf (en_tree EN3)), terminal_not_leaky, (derives_input (en_tree EN1)). reflexivity.
Qed.
Lemma good_shift p ents b trees lk lost x stk s' c v : inv ts0 e0 B p ents b trees lk lost -> List.length (p_stk p) < YYINITDEPTH -> p_stk p = x :: stk -> s_state x <> YYFINAL ->
  p_look p = Some (c, v) -> decide (s_state x) (yytranslate_of c) = Some (DShift s') -> stos s' = sym_of_code c ->
  ctl (mkP (mkEnt s' v (loc_of (e_lpos (p_env p))) :: p_stk p) None (p_toks p) (p_env p)) ->
  good (abs ents trees lk (p_toks p)) (Cont (mkP (mkEnt s' v (loc_of (e_lpos (p_env p))) :: p_stk p) None (p_toks p) (p_env p))).
Proof.
  intros I LD ES NF EL DE EC CT. pose proof (abs_step I ES LD NF) as AS. rewrite EL in AS. cbn [tok_of] in AS. rewrite DE in AS. cbn zeta in AS. destruct I as [ICTL ISTK IENTS ILOOK ITOKS IPOS IHEAP IFIRST ILOST IMSG IPH]. rewrite EL in ILOOK.
  destruct lk as [|t [|]]; try destruct ILOOK as []; []. destruct H0 as (W & ER & CP). subst c. rewrite sym_code in EC.
  set (y := mkEnt s' v (loc_of (e_lpos (p_env p)))). cbn [good].
  assert (SY : sym y = sym_of t) by exact EC.
  rewrite last_pos_app in IPOS.
  exists (ents ++ [y]), b, (trees ++ [Leaf t]), [], lost. cbn [p_toks]. split; [|rewrite AS; unfold abs; rewrite !rev_app_distr; reflexivity]. clear AS. constructor; cbn [p_stk p_look p_toks p_env].
  - exact CT.
  - rewrite rev_app_distr, ISTK. reflexivity.
  - apply Forall2_app; [exact IENTS|]. constructor; [|constructor]. constructor.
    + rewrite SY. constructor.
    + unfold typed_entry. rewrite SY. exact W.
    + intros k K. injection K as <-. exact ER.
    + intros _. exists t, []. split; [reflexivity|]. injection IPOS as I1 I2 _ _. subst y. cbn [s_loc loc_of l_fl l_fc]. auto.
  - exact I.
  - rewrite yields_app. change (yields [Leaf t]) with [t]. rewrite <- ITOKS, <- app_assoc. reflexivity.
  - rewrite yields_app, app_nil_r. change (yields [Leaf t]) with [t]. rewrite last_pos_app. exact IPOS.
  - eapply heap_ext; [exact IHEAP|]. intro z. cbn beta. rewrite EL, map_app, cas_app. cbn [map cas lca s_val]. subst y. cbn [s_val]. lia.
  - rewrite yields_app. intro E. apply app_eq_nil in E as [E _]. apply app_eq_nil in E as [_ E]. discriminate E.
  - intro M. eapply lost_blocks_ext; [exact (ILOST M)|reflexivity|]. rewrite leak_sum_app. unfold leak_sum at 3. cbn [map leak_count list_sum fold_right]. lia.
  - destruct IMSG as [IM|[IM IC]]; [now left|right]. split; [exact IM|]. rewrite map_app, existsb_app, IC. reflexivity.
  - destruct IPH as [EA|LT]; [left|right].
    + destruct EA as [A1 A2 A3 A4 A5 A6]. constructor; [| exact A2 | exact A3 | | |intro M; rewrite sems_app, (A6 M); reflexivity].
      * apply Forall_app. split; [exact A1|]. constructor; [|constructor]. unfold no_input. rewrite SY. intro E.
        destruct (yytranslate_range (@code_range t)) as (z & _ & RZ & _ & EZ). rewrite sym_code in EZ. unfold S_input in E. lia.
      * intro q. rewrite map_app, cps_app, A4. cbn [map cps s_val]. subst y. cbn [s_val]. rewrite CP. lia.
      * intro M. rewrite sems_app, (A5 M). cbn [sems sem]. rewrite !map_app. cbn [map]. subst y. cbn [s_val]. now rewrite ER.
    + destruct (late_top ICTL ISTK IENTS LT) as (tl & ts & [(-> & x0 & -> & SX)|(k & y0 & x' & _ & _ & _ & PL & _)]); [|congruence].
      destruct LT as (tl' & ts' & rest & ET' & MN & RO & _). injection ET' as <- <- <-.
      exists tl, ts, [Leaf t]. split; [reflexivity|]. cbn [p_env p_toks p_look]. split; [exact MN|]. split; [exact RO|]. right.
      assert (S0 : sym_of t = 0%N).
      { destruct CT as [CP' _]. cbn [p_stk] in CP'. rewrite ISTK in CP'. cbn in CP'. rewrite SX in CP'.
        inversion CP' as [|? ? ? IP NZ _]; subst. apply input_succ in IP; [|apply (path_cons CP')]. rewrite <- EC, IP. reflexivity. }
      split; [eauto|]. split; [|reflexivity].
      destruct ICTL as [_ CTK]. rewrite ES in CTK. specialize (CTK NF). rewrite EL in CTK. destruct CTK as [[_ CTK]|[CTK _]]; [exact CTK|].
      exfalso. destruct (yytranslate_range (@code_range t)) as (z & _ & RZ & Z0 & EZ). rewrite sym_code, S0 in EZ. assert (z = 0)%Z by lia. specialize (Z0 H). lia.
Qed.

(** ** Reductions *)
Lemma sems_nth ts : forall k vs n i t, sems ts k = Some (vs, n) -> nth_error ts i = Some t -> exists k1 k2 v, nth_error vs i = Some v /\ sem t k1 = Some (v, k2).
Proof.
  intros k vs n i t E. apply sems_each in E. revert i. induction E as [|t0 v ts vs (k1 & k2 & S) F IH]; intros [|i] N; cbn [nth_error] in *; try discriminate.
  - injection N as <-. eauto.
  - auto.
Qed.
Lemma table_rules r ts : derives S_table_name (Node r ts) -> r = 309%N \/ r = 310%N /\ exists t1 t2 t3, ts = [Leaf t1; t2; t3] /\ sym_of t1 = S_IDENTIFIER.
Proof.
  intro D. inversion D as [|r' lhs rhs ts' P DL]; subst.
  assert (A : forallb (fun p => negb (N.eqb (fst (snd p)) S_table_name) || N.eqb (fst p) 309 || N.eqb (fst p) 310) grammar = true) by (vm_compute; reflexivity).
  rewrite forallb_forall in A. specialize (A _ (production_In P)). cbn [fst snd] in A. rewrite N.eqb_refl in A. cbn [negb orb] in A.
  apply orb_prop in A as [A|A]; apply N.eqb_eq in A as ->; [now left|right]. split; [reflexivity|].
  assert (E : production 310 = Some (S_table_name, [S_IDENTIFIER; S_dot; S_IDENTIFIER])) by reflexivity. rewrite E in P. injection P as <-.
  inversion DL as [|? ? t1 ts1 D1 DL1]; subst. inversion DL1 as [|? ? t2 ts2 D2 DL2]; subst. inversion DL2 as [|? ? t3 ts3 D3 DL3]; subst. inversion DL3; subst.
  destruct (derives_terminal D1) as (k & -> & SK); [reflexivity|]. exists k, t2, t3. auto.
Qed.
Lemma leak_58 tp args k k' rhs : derives_list rhs tp -> nth_error rhs 5 = Some S_table_name -> Forall tok_ok (yields tp) ->
  sems tp k = Some (map erase args, k') -> leak_n 58 args = leak_here 58 tp.
Proof.
  intros DL NR TO SE. unfold leak_n, leaks, leak_here, plain_index. cbn [N.eqb Pos.eqb].
  assert (NT : exists t, nth_error tp 5 = Some t /\ derives S_table_name t).
  { clear -DL NR. revert NR. generalize 5 as i. induction DL as [|X Xs t ts D DL IH]; intros [|i] E; try discriminate E; cbn [nth_error] in *; [injection E as ->; eauto|eauto]. }
  destruct NT as (t & NT & DT). rewrite NT.
  destruct (sems_nth SE NT) as (k1 & k2 & v & NV & SV). rewrite nth_error_map in NV.
  destruct (nth_error args 5) as [w|] eqn:NW; [|discriminate]. cbn [option_map] in NV. injection NV as <-.
  rewrite (nth_error_nth _ _ _ NW). destruct t as [kk|r ts]; [exfalso; destruct (yytranslate_range (@code_range kk)) as (z & _ & RZ & _ & EZ); rewrite sym_code in EZ; apply derives_leaf in DT; unfold S_table_name in DT; lia|]. rewrite sem_node in SV.
  destruct (table_rules DT) as [->|(-> & t1 & t2 & t3 & -> & SI)].
  - destruct (sems ts k1) as [[vs j]|]; [|discriminate]. cbn [asem] in SV. injection SV as SV _.
    destruct w; try discriminate SV. rewrite erase_rec_def in SV. injection SV as SV. destruct fs as [|[f w] fs]; [discriminate|].
    cbn in SV. injection SV as <- SV _. symmetry in SV. apply erase_null in SV. now rewrite SV.
  - assert (TK : tok_ok t1). { rewrite Forall_forall in TO. apply TO. unfold yields. apply in_flat_map. exists (Node 310 [Leaf t1; t2; t3]). split; [eapply nth_error_In; exact NT|left; reflexivity]. }
    unfold tok_ok in TK. rewrite SI in TK. change (symty S_IDENTIFIER) with TStr in TK. destruct (t_val t1) as [|s|z|f] eqn:TV; try destruct TK.
    cbn [sems sem] in SV. unfold token_val in SV. rewrite TV in SV. destruct (sem t2 k1) as [[v2 j2]|]; [|discriminate]. destruct (sem t3 j2) as [[v3 j3]|]; [|discriminate].
    cbn [asem] in SV. injection SV as SV _.
    destruct w; try discriminate SV. rewrite erase_rec_def in SV. injection SV as SV. destruct fs as [|[f w] fs]; [discriminate|].
    cbn in SV. injection SV as <- SV _. destruct w; try discriminate SV. reflexivity.
Qed.
Lemma msg_of e ents : (err_eq e0 e \/ (err_at ts0 e /\ existsb carrier (map sym ents) = true)) -> msg_ok (e_msg e).
Proof. intros [(_ & M & _)|((_ & (a & s & M) & _) & _)]; rewrite M; [rewrite M0|]; exact I. Qed.
Lemma msg_dec v : v = VNull \/ v <> VNull.
Proof. destruct v; auto; right; discriminate. Qed.
Lemma starts_hollow_fact r lhs rhs k args : production r = Some (lhs, rhs) -> r <> 1%N -> asem r k args = None -> starts_hollow rhs = false.
Proof.
  intros P N1 A. destruct (starts_hollow rhs) eqn:E; [|reflexivity]. exfalso. exact (hollow_total P N1 E A).
Qed.
Lemma starts_incl a b x : In x (starts a) -> (exists c, b = c ++ a) -> In x (starts b).
Proof. intros I (c & ->). rewrite starts_app. apply in_app_iff. now right. Qed.
Lemma combine_app A C (a : list A) (c : list C) : forall a' c', List.length a = List.length c -> combine (a ++ a') (c ++ c') = combine a c ++ combine a' c'.
Proof. revert c. induction a as [|x a IH]; intros [|y c] a' c' L; try discriminate L; [reflexivity|]. cbn [app combine]. f_equal. apply IH. now injection L. Qed.
Lemma map_snd_combine A C (a : list A) : forall c : list C, List.length a = List.length c -> map snd (combine a c) = c.
Proof. induction a as [|x a IH]; intros [|y c] L; try discriminate L; [reflexivity|]. cbn [combine map snd]. f_equal. apply IH. now injection L. Qed.
Lemma abs_reduce p ents1 popped b trees1 tp lk lost x stk r lhs rhs below stk' g : inv ts0 e0 B p (ents1 ++ popped) b (trees1 ++ tp) lk lost -> List.length (p_stk p) < YYINITDEPTH ->
  p_stk p = x :: stk -> s_state x <> YYFINAL -> decide (s_state x) (tok_of (p_look p)) = Some (DReduce r) ->
  production (Z.to_N r) = Some (lhs, rhs) -> map sym popped = rhs -> List.length ents1 = List.length trees1 -> List.length popped = List.length tp -> below :: stk' = rev ents1 ++ [b] -> goto_of (s_state below) (Z.of_N lhs) = Some g ->
  astep (abs (ents1 ++ popped) (trees1 ++ tp) lk (p_toks p)) = ACont (mkA ((g, Node (Z.to_N r) tp) :: combine (map s_state (rev ents1)) (rev trees1)) (hd_error lk) (p_toks p)).
Proof.
  intros I LD ES NF DE PR RH L1 L2 EB GO. rewrite (abs_step I ES LD NF), DE. cbn zeta. rewrite PR.
  assert (SP : a_stk (abs (ents1 ++ popped) (trees1 ++ tp) lk (p_toks p)) = combine (map s_state (rev popped)) (rev tp) ++ combine (map s_state (rev ents1)) (rev trees1)).
  { unfold abs. cbn [a_stk]. rewrite !rev_app_distr, map_app. apply combine_app. rewrite map_length, !rev_length. exact L2. }
  assert (LN : List.length rhs = List.length (combine (map s_state (rev popped)) (rev tp))) by (rewrite <- RH, combine_length, !map_length, !rev_length; lia).
  rewrite SP, LN, skipn_app, skipn_all, Nat.sub_diag, firstn_app, firstn_all, Nat.sub_diag. cbn [skipn firstn app]. rewrite app_nil_r.
  assert (TOP : atop (combine (map s_state (rev ents1)) (rev trees1)) = s_state below).
  { destruct ents1 as [|y ents1 _] using rev_ind.
    - destruct trees1; [|discriminate L1]. cbn in EB |- *. injection EB as -> _. symmetry. destruct (i_ctl I) as [CP _]. rewrite (i_stk I) in CP. unfold states in CP. rewrite map_app in CP. apply (path_bottom CP).
    - destruct trees1 as [|t trees1 _] using rev_ind; [rewrite app_length in L1; cbn in L1; lia|]. rewrite !rev_app_distr in *. cbn [rev app map combine atop] in *. now injection EB as -> _. }
  rewrite TOP, GO, map_rev, map_snd_combine by (rewrite map_length, !rev_length; exact L2). rewrite rev_involutive. reflexivity.
Qed.
Lemma abs_push ents1 trees1 lk toks x t : abs (ents1 ++ [x]) (trees1 ++ [t]) lk toks = mkA ((s_state x, t) :: combine (map s_state (rev ents1)) (rev trees1)) (hd_error lk) toks.
Proof. unfold abs. rewrite !rev_app_distr. reflexivity. Qed.
Lemma good_reduce p ents b trees lk lost x stk r lhs rhs popped below stk' g : inv ts0 e0 B p ents b trees lk lost -> List.length (p_stk p) < YYINITDEPTH ->
  p_stk p = x :: stk -> s_state x <> YYFINAL -> decide (s_state x) (tok_of (p_look p)) = Some (DReduce r) ->
  production (Z.to_N r) = Some (lhs, rhs) -> (2 <= r)%Z -> p_stk p = rev popped ++ below :: stk' -> map (fun y => stos (s_state y)) popped = rhs ->
  goto_of (s_state below) (Z.of_N lhs) = Some g -> stos g = lhs -> path (states (below :: stk')) -> s_state below <> YYFINAL -> path (g :: states (below :: stk')) ->
  step p = (match act (Z.to_N r) (map s_val popped) (set_loc (default_loc popped below) (p_env p)) with
                 | ROk v e' => Cont (mkP (mkEnt g v (default_loc popped below) :: below :: stk') (p_look p) (p_toks p) e')
                 | RErr e' => finish 1 (pop_error (below :: stk') ;; drop_look (p_look p)) e'
                 | RUB u => Undef u
                 end) -> good (abs ents trees lk (p_toks p)) (step p).
Proof.
  intros I LD ES NF DE PR R2 EP RH GO SG PB NB PG EQ. pose proof I as I'. destruct I' as [ICTL ISTK IENTS ILOOK ITOKS IPOS IHEAP IFIRST ILOST IMSG IPH].
  destruct IPH as [EA|LT]; cycle 1.
  { exfalso. destruct (late_top ICTL ISTK IENTS LT) as (tl & ts & [(-> & x0 & -> & SX)|(k & y0 & x' & _ & _ & _ & PL & -> & SX)]);
      rewrite ES in ISTK; cbn in ISTK; injection ISTK as -> ->; [|congruence]. rewrite SX in DE. exact (input_no_reduce ILOOK DE). }
  rewrite ISTK in EP. destruct (stack_split EP) as (ents1 & -> & EB). clear EP.
  destruct (Forall2_app_inv_l _ _ IENTS) as (trees1 & tp & F1 & F2 & ->).
  change (map sym popped = rhs) in RH.
  pose proof (abs_reduce I LD ES NF DE PR RH (Forall2_len F1) (Forall2_len F2) EB GO) as AS.
  set (loc := default_loc popped below) in *. set (e := set_loc loc (p_env p)) in *.
  destruct EA as [A1 A2 A3 A4 A5 A6].
  assert (HE : heap e (fun x => cas x (map s_val popped) + ca x (e_msg e) + (cas x (map s_val ents1) + lca x (p_look p) + cas x (e_stmts e) + lost x + B x))).
  { eapply heap_ext; [exact (heap_loc loc IHEAP)|]. intro z. cbn beta. rewrite map_app, cas_app. change (e_msg e) with (e_msg (p_env p)). change (e_stmts e) with (e_stmts (p_env p)). lia. }
  assert (TY : typed (map s_val popped) rhs) by (rewrite <- RH; apply typed_of, (ents_typed F2)).
  assert (MO : msg_ok (e_msg e)) by exact (msg_of IMSG).
  assert (PT : yields (trees1 ++ tp) ++ lk ++ p_toks p = yields (trees1 ++ [Node (Z.to_N r) tp]) ++ lk ++ p_toks p).
  { rewrite !yields_app. cbn [yields flat_map yield]. rewrite app_nil_r. reflexivity. }
  assert (SEM : e_msg e = VNull -> exists k, sems trees1 0 = Some (map erase (map s_val ents1), k) /\ sems tp k = Some (map erase (map s_val popped), List.length (e_plist e))).
  { intro M. specialize (A5 M). rewrite !map_app in A5. apply sems_split in A5; [exact A5|]. rewrite !map_length. apply (Forall2_len F1). }
  assert (N1 : Z.to_N r <> 1%N) by lia.
  destruct (N.eq_dec (Z.to_N r) 2) as [R2'|R2'].
  - rewrite R2' in *. rewrite production_2 in PR. injection PR as <- RHS. rewrite <- RHS in *. clear RHS.
    assert (RG : (0 <= g < 656)%Z) by (eapply path_cons; exact PG). pose proof (input_facts RG SG) as G19.
    cbn [states map] in PG. destruct (path_pred PG) as (s19 & l19 & EE19 & IP); [rewrite G19; discriminate|]. injection EE19 as <- _.
    rewrite G19 in IP. apply input_preds in IP. assert (SK : stk' = [] /\ ents1 = [] /\ below = b).
    { destruct stk' as [|z stk'].
      - destruct ents1 as [|z ents1 _] using rev_ind; [cbn in EB; injection EB as <-; auto|].
        exfalso. rewrite rev_app_distr in EB. cbn in EB. injection EB as -> EB. destruct (rev ents1); discriminate EB.
      - exfalso. rewrite IP in PG. cbn in PG. inversion PG as [|? ? ? ? ? PP]; subst. inversion PP; congruence. }
    destruct SK as (-> & -> & ->). inversion F1; subst trees1.
    destruct popped as [|y1 [|y2 [|]]]; try discriminate RH. cbn [map] in RH. injection RH as SY1 SY2.
    inversion F2 as [|? tl ? ? EN1 F3]; subst. inversion F3 as [|? tsm ? ? EN2 F4]; subst. inversion F4; subst. clear F3 F4.
    assert (MN : e_msg (p_env p) = VNull).
    { destruct IMSG as [(_ & IM & _)|[_ IC]]; [congruence|]. exfalso. cbn [app map] in IC. rewrite SY1, SY2 in IC. vm_compute in IC. discriminate IC. }
    pose proof (en_type EN1) as W1. pose proof (en_type EN2) as W2. unfold typed_entry in W1, W2. rewrite SY1 in W1. rewrite SY2 in W2.
    change (symty S_statement_list) with (TVec TFinal) in W1. change (symty S_opt_semicolon) with TUninit in W2.
    apply wt_vec_inv in W1 as (a & l & EV1 & W1). assert (EV2 : s_val y2 = VUninit) by now inversion W2. clear W2.
    destruct (@act_2 l a e (fun x => lca x (p_look p) + lost x + B x) [VUninit]) as (e' & EACT & [(l' & B1 & B2 & B3 & B4 & B5 & B6) B7 B8 B9 B10 B11 B12]).
    + exact W1.
    + eapply heap_ext; [exact HE|]. intro z. cbn [map cas app]. rewrite EV1, EV2. change (e_msg e) with (e_msg (p_env p)). rewrite MN. cbn [ca]. lia.
    + intro q. specialize (A4 q). cbn [app map cps] in A4. rewrite EV1, EV2 in A4. rewrite cp_vec in A4. change (listed e q) with (listed (p_env p) q). rewrite <- A4. change (cp q VUninit) with 0. lia.
    + change (e_params e) with (e_params (p_env p)). rewrite A3, P0. constructor.
    + cbn [map] in EQ. rewrite EV1, EV2, EACT in EQ. rewrite EQ. cbn [good]. change (e_lpos e) with (e_lpos (p_env p)) in B12. change (e_plist e) with (e_plist (p_env p)) in *.
      change (e_stmts e) with (e_stmts (p_env p)) in *. change (e_params e) with (e_params (p_env p)) in *. destruct B9 as (V1 & V2 & V3 & V4).
      change (e_valid e) with (e_valid (p_env p)) in V1. change (e_msg e) with (e_msg (p_env p)) in V2. change (e_line e) with (e_line (p_env p)) in V3. change (e_col e) with (e_col (p_env p)) in V4.
      exists [mkEnt 19 VUninit loc], b, [Node 2 [tl; tsm]], lk, lost. cbn [p_toks]. split; [|rewrite AS; reflexivity]. clear AS.
      assert (YY : yields [Node 2 [tl; tsm]] = yields [tl; tsm]) by (cbn; now rewrite !app_nil_r).
      constructor; cbn [p_stk p_look p_toks p_env].
      * apply (ctl_step ICTL EQ).
      * reflexivity.
      * constructor; [|constructor]. constructor.
        -- unfold sym. cbn [s_state]. rewrite SG. econstructor; [apply production_2|]. rewrite <- SY1, <- SY2. constructor; [apply EN1|]. constructor; [apply EN2|constructor].
        -- unfold typed_entry, sym. cbn [s_state s_val]. rewrite SG. change (symty S_input) with TUninit. constructor.
        -- discriminate.
        -- cbn [s_loc]. apply new_loc, F2.
      * exact ILOOK.
      * rewrite YY. exact ITOKS.
      * rewrite YY, B12. exact IPOS.
      * eapply heap_ext; [exact B8|]. intro z. cbn [map cas s_val ca]. rewrite V2, MN. cbn [ca]. lia.
      * intro E. exfalso. rewrite YY in E. specialize (IFIRST E). discriminate IFIRST.
      * intros _. eapply lost_blocks_ext; [exact (ILOST MN)|reflexivity|]. unfold leak_sum. cbn [app map leak_count list_sum fold_right]. match goal with |- context [leak_here ?r ?t] => change (leak_here r t) with 0 end. lia.
      * left. destruct IMSG as [IM|[(_ & (a0 & s0 & IM) & _) _]]; [unfold err_eq in *; intuition congruence|congruence].
      * right. exists tl, tsm, []. split; [reflexivity|]. cbn [p_env p_toks p_look]. split; [congruence|]. split; [|now left].
        destruct (SEM MN) as (k & SE1 & SE2). cbn [sems] in SE1. injection SE1 as <-. cbn [sems] in SE2.
        destruct (sem tl 0) as [[v1 k1]|] eqn:ST1; [|discriminate]. destruct (sem tsm k1) as [[v2 k2]|] eqn:ST2; [|discriminate]. injection SE2 as SE2 SE3 SE4.
        assert (KE : k2 = k1).
        { pose proof (en_tree EN2) as D. rewrite SY2 in D. clear -D ST2. inversion D as [|r ? rhs tts P DL E]; subst; [cbn [sem] in ST2; now injection ST2|].
          assert (A : forallb (fun p => negb (N.eqb (fst (snd p)) S_opt_semicolon) || (negb (N.eqb (fst p) 298) && forallb (fun Y => N.ltb Y 199) (snd (snd p)))) grammar = true) by (vm_compute; reflexivity).
          rewrite forallb_forall in A. apply production_In in P. specialize (A _ P). cbn [fst snd] in A. rewrite N.eqb_refl in A. cbn [negb orb] in A.
          apply andb_prop in A as [A1 A2]. apply negb_true_iff in A1. rewrite sem_node in ST2. 
          destruct (sems tts k1) as [[vs k3]|] eqn:SS; [|discriminate]. destruct (asem r k3 vs); [|discriminate]. rewrite A1 in ST2. injection ST2 as _ <-.
          clear -DL A2 SS. revert k1 vs k3 tts DL SS. induction rhs as [|Y rhs IH]; intros k1 vs k3 tts DL SS; inversion DL as [|? ? t tts' DT DL']; subst; [now injection SS|].
          cbn [forallb] in *. apply andb_prop in A2 as [AY A2]. destruct (derives_terminal DT) as (k & -> & _); [lia|]. cbn [sems sem] in SS.
          destruct (sems tts' k1) as [[ws k4]|] eqn:SS2; [|discriminate]. injection SS as _ <-. eapply IH; eassumption. }
        constructor.
        -- exists l'. rewrite B11. split; [congruence|]. split; [exact B2|]. split; [|split; [exact B6|]].
           ++ rewrite ST1, <- SE4, KE, SE2, EV1, B3. reflexivity.
           ++ intro q. rewrite B5. specialize (A4 q). cbn [app map cps] in A4. rewrite EV1, EV2, cp_vec in A4. unfold listed in A4. unfold listed_in. rewrite <- A4. change (cp q VUninit) with 0. lia.
        -- rewrite B7, B11. congruence.
  - pose proof (@actions_correct _ _ _ PR N1 R2' _ _ _ TY MO HE) as AC.
    destruct (act (Z.to_N r) (map s_val popped) e) as [v e'|e'|u] eqn:EACT.
    + rewrite EQ. cbn [good]. destruct AC as [OW OH OM OMO OS OP OL OLP OPL OCP OSEM OBAD]. destruct OH as (lost' & OH & OLZ).
      exists (ents1 ++ [mkEnt g v loc]), b, (trees1 ++ [Node (Z.to_N r) tp]), lk, (fun x => lost' x + lost x). cbn [p_toks]. split; [|rewrite AS, abs_push; reflexivity]. clear AS.
      assert (SY : sym (mkEnt g v loc) = lhs) by exact SG.
      assert (MEQ : e_msg e' = VNull -> e_msg e = VNull).
      { intro M. destruct OM as [(_ & OM & _)|(_ & (_ & (a & s & OM) & _))]; congruence. }
      constructor; cbn [p_stk p_look p_toks p_env].
      * apply (ctl_step ICTL EQ).
      * rewrite rev_app_distr, EB. reflexivity.
      * apply Forall2_app; [exact F1|]. constructor; [|constructor]. constructor.
        -- rewrite SY. econstructor; [exact PR|]. rewrite <- RH. apply derives_list_of, F2.
        -- unfold typed_entry. rewrite SY. exact OW.
        -- discriminate.
        -- cbn [s_loc]. apply new_loc, F2.
      * exact ILOOK.
      * rewrite <- PT. exact ITOKS.
      * rewrite OLP. replace (yields (trees1 ++ [Node (Z.to_N r) tp])) with (yields (trees1 ++ tp)).
        -- rewrite <- IPOS. change (e_lpos e) with (e_lpos (p_env p)). unfold lpos_after. destruct (Z.to_N r) as [|q]; [reflexivity|]. repeat (destruct q as [q|q|]; try reflexivity).
        -- rewrite !yields_app. cbn [yields flat_map yield]. rewrite app_nil_r. reflexivity.
      * eapply heap_ext; [exact OH|]. intro z. cbn beta. rewrite map_app, cas_app, OS. cbn [map cas s_val]. change (e_stmts e) with (e_stmts (p_env p)). lia.
      * intro E. exfalso. assert (E' : yields (trees1 ++ tp) ++ lk = []).
        { rewrite yields_app in *. cbn [yields flat_map yield] in E. rewrite app_nil_r in E. exact E. }
        apply IFIRST in E' as E''. apply app_eq_nil in E'' as [-> ->]. cbn in ISTK. rewrite ES in ISTK. injection ISTK as -> ->.
        destruct ICTL as [CP _]. rewrite ES in CP. cbn in CP. inversion CP as [CS|]. apply app_eq_nil in E' as [_ ->].
        destruct (p_look p) as [[]|]; [destruct ILOOK|]. cbn [tok_of] in DE. rewrite <- CS in DE. vm_compute in DE. discriminate DE.
      * intro M. specialize (MEQ M). assert (LN : leak_n (Z.to_N r) (map s_val popped) = leak_here (Z.to_N r) tp).
        { destruct (N.eq_dec (Z.to_N r) 58) as [E58|N58].
          - rewrite E58 in *. destruct (SEM MEQ) as (k & _ & SE). eapply leak_58; [| | |exact SE].
            + apply derives_list_of, F2.
            + rewrite RH. clear -PR. vm_compute in PR. injection PR as _ <-. reflexivity.
            + apply Forall_forall. intros t IT. rewrite Forall_forall in OK0. apply OK0. rewrite <- ITOKS, yields_app, !in_app_iff. auto.
          - unfold leak_n, leak_here, leaks. clear -N58. destruct (Z.to_N r) as [|q]; [reflexivity|]. repeat (destruct q as [q|q|]; try reflexivity; try congruence). }
        eapply lost_blocks_ext; [exact (lost_blocks_plus (OLZ (or_introl MEQ)) (ILOST MEQ))|reflexivity|].
        rewrite LN, !leak_sum_app. change (leak_sum [Node (Z.to_N r) tp]) with (leak_here (Z.to_N r) tp + leak_sum tp + 0). lia.
      * assert (RL : err_eq (p_env p) e' -> err_eq e0 e' \/ (err_at ts0 e' /\ existsb carrier (map sym (ents1 ++ [mkEnt g v loc])) = true)).
        { intro EE. destruct IMSG as [IM|[IM IC]]; [left; eapply err_eq_trans; eassumption|right]. split.
          - destruct EE as (E1 & E2 & E3 & E4). unfold err_at. rewrite E1, E2, E3, E4. exact IM.
          - rewrite map_app, existsb_app in *. apply orb_prop in IC as [IC|IC]; [now rewrite IC|]. rewrite RH in IC.
            destruct (carrier_up PR IC) as [CU|E56].
            + cbn [map existsb]. rewrite SY, CU. now rewrite orb_true_r.
            + exfalso. rewrite E56 in *. assert (RQ : rhs = [S_CREATE; S_TABLE; S_opt_not_exists; S_table_name; S_lpar; S_table_elem_commalist; S_rpar]) by (vm_compute in PR; injection PR as _ PR; now rewrite <- PR).
              rewrite RQ in TY. pose proof (act_56_msg TY MO HE EACT) as MN. destruct IM as (_ & (a & s & IM) & _). change (e_msg e) with (e_msg (p_env p)) in MN. congruence. }
        destruct OM as [OM|(E66 & RP)]; [apply RL; exact OM|]. right. destruct RP as (V & M & LL & CC). split.
        -- split; [exact V|]. split; [exact M|]. eexists _, _. split; [|split; [exact LL|exact CC]]. cbn [e_loc e set_loc].
           apply starts_incl with (a := yields tp ++ lk ++ p_toks p).
           ++ rewrite starts_app. apply in_app_iff. left. unfold loc. eapply start_In; [exact F2|rewrite RH; exact PR|]. rewrite RH.
              rewrite E66 in PR. clear -PR. vm_compute in PR. injection PR as <- <-. reflexivity.
           ++ exists (yields trees1). rewrite <- ITOKS, yields_app, <- app_assoc. reflexivity.
        -- rewrite map_app, existsb_app. cbn [map existsb]. rewrite SY. rewrite E66 in PR. assert (EL : lhs = S_column_def) by (vm_compute in PR; injection PR as PR _; now rewrite <- PR).
           rewrite EL. cbn. now rewrite orb_true_r.
      * left. constructor.
        -- apply Forall_app in A1 as [A1 A1']. apply Forall_app. split; [exact A1|]. constructor; [|constructor]. unfold no_input. rewrite SY. intro E. apply R2'. exact (input_rule PR E).
        -- rewrite OS. exact A2.
        -- rewrite OP. exact A3.
        -- intro q. specialize (A4 q). specialize (OCP q). rewrite map_app, cps_app. cbn [map cps s_val]. change (listed e q) with (listed (p_env p) q) in OCP. rewrite map_app, cps_app in A4. lia.
        -- intro M. specialize (MEQ M). destruct (SEM MEQ) as (k & SE1 & SE2). rewrite sems_app, SE1. cbn [sems]. rewrite sem_node, SE2, OSEM by congruence.
           rewrite !map_app. cbn [map s_val]. destruct OPL as (l & -> & LL). rewrite app_length, LL. destruct (N.eqb (Z.to_N r) 298); repeat f_equal; lia.
        -- intro M. rewrite sems_app. destruct (msg_dec (e_msg e)) as [M1|M1].
           ++ destruct (SEM M1) as (k & SE1 & SE2). rewrite SE1. cbn [sems]. rewrite sem_node, SE2, OBAD by congruence. reflexivity.
           ++ specialize (A6 M1). rewrite sems_app in A6. destruct (sems trees1 0) as [[vs k]|]; [|reflexivity]. cbn [sems]. rewrite sem_node. destruct (sems tp k) as [[ws k']|]; [discriminate A6|reflexivity].
    + rewrite EQ. destruct AC as [EH EM ES' EP ELP]. destruct EH as (lost' & EH & ELZ).
      assert (CL : cleans (pop_error (below :: stk') ;; drop_look (p_look p)) (fun x => cas x (map s_val ents1) + lca x (p_look p)) (quiet (rev ents1))).
      { rewrite EB. eapply cleans_ext.
        - apply cleans_seq; [|apply (drop_look_cleans ILOOK)]. apply pop_error_cleans.
          + apply Forall_rev', (ents_typed F1).
          + eapply ents_rng. rewrite <- EB. exact PB.
          + rewrite <- EB. apply stack_shifts; [exact PB|exact NB].
        - intro y. cbn beta. rewrite map_rev, cas_rev. lia.
        - intro C. now rewrite andb_true_r. }
      destruct (@cleans_run _ _ _ e' (fun x => ca x (e_msg e') + lost' x + cas x (e_stmts e') + lost x + B x) CL) as (e2 & lost2 & E2 & S2 & H2 & LZ).
      { eapply heap_ext; [exact EH|]. intro z. cbn beta. rewrite ES'. lia. }
      unfold finish. rewrite E2. cbn [good]. right. split; [now left|]. destruct S2 as ((Q1 & Q2 & Q3 & Q4 & Q5) & (Q6 & Q7 & Q8 & Q9)).
      split; [|right; right; split; [reflexivity|]; eexists; split; [exact AS|]; rewrite atrees_cons; unfold atrees; cbn [a_stk]; rewrite map_snd_combine, rev_involutive by (rewrite map_length, !rev_length; apply (Forall2_len F1))].
      2:{ assert (AB : e_msg e = VNull -> asem (Z.to_N r) (List.length (e_plist e)) (map erase (map s_val popped)) = None) by (intro MN; destruct EM as [(_ & _ & MN')|(_ & AB)]; [congruence|exact AB]).
          rewrite sems_app. destruct (msg_dec (e_msg e)) as [M1|M1].
          - destruct (SEM M1) as (k & SE1 & SE2). rewrite SE1. cbn [sems]. rewrite sem_node, SE2, (AB M1). reflexivity.
          - specialize (A6 M1). rewrite sems_app in A6. destruct (sems trees1 0) as [[vs k]|]; [|reflexivity]. cbn [sems]. rewrite sem_node. destruct (sems tp k) as [[ws k']|]; [discriminate A6|reflexivity]. }
      split; [|split].
      * unfold err_at. rewrite Q6, Q7, Q8, Q9. destruct EM as [(E56 & (V1 & V2 & V3 & V4) & MN)|((V & M & LL & CC) & AS2)].
        -- destruct IMSG as [(_ & IM & _)|[IM _]]; [exfalso; change (e_msg e) with (e_msg (p_env p)) in MN; congruence|].
           unfold err_at in IM. rewrite V1, V2, V3, V4. exact IM.
        -- split; [exact V|]. split; [exact M|]. eexists _, _. split; [|split; [exact LL|exact CC]]. cbn [e_loc e set_loc].
           apply starts_incl with (a := yields tp ++ lk ++ p_toks p).
           ++ rewrite starts_app. apply in_app_iff. left. unfold loc. eapply start_In; [exact F2|rewrite RH; exact PR|]. rewrite RH. eapply starts_hollow_fact; [exact PR|exact N1|exact AS2].
           ++ exists (yields trees1). rewrite <- ITOKS, yields_app, <- app_assoc. reflexivity.
      * left. rewrite Q1, Q2, ES', EP. split; [exact A2|exact A3].
      * exists (fun x => lost2 x + lost' x + lost x). split.
        -- eapply heap_ext; [exact H2|]. intro z. cbn beta. rewrite Q7, Q1. lia.
        -- intros C z. destruct (clean_stack I M0 C) as (MN & TD & L0).
           rewrite LZ, L0, ELZ; [reflexivity| |exact MN|].
           ++ intro E55. assert (C1 : clean (yields tp) = true).
              { rewrite <- ITOKS, yields_app, !clean_app in C. apply andb_prop in C as [C _]. now apply andb_prop in C. }
              assert (D : derives lhs (Node (Z.to_N r) tp)) by (econstructor; [exact PR|rewrite <- RH; apply derives_list_of, F2]).
              rewrite E55 in PR. destruct F2 as [|y t popped' tp' EN F2]; [vm_compute in PR; subst rhs; discriminate PR|].
              change (yields (t :: tp')) with (yield t ++ yields tp') in C1. rewrite clean_app in C1. apply andb_prop in C1 as [C1 _].
              rewrite (heavy_ok (en_tree EN)) in C1; [discriminate C1|]. cbn [map] in RH. 
              assert (RQ : exists l, rhs = S_CREATE :: l) by (vm_compute in PR; injection PR as _ PR; eexists; rewrite <- PR; reflexivity).
              destruct RQ as (l & RQ). rewrite RQ in RH. injection RH as RH _. rewrite RH. vm_compute. auto 10.
           ++ apply quiet_rev. intros y Y. apply TD. apply in_app_iff. now left.
    + rewrite EQ. cbn [good]. destruct AC as (-> & a & s & NA & CASE). split; cycle 1.
      { eexists. split; [exact AS|]. rewrite atrees_cons. unfold atrees. cbn [a_stk]. rewrite map_snd_combine, rev_involutive by (rewrite map_length, !rev_length; apply (Forall2_len F1)).
        assert (AB : asem (Z.to_N r) (List.length (e_plist e)) (map erase (map s_val popped)) = None).
        { clear -NA CASE. destruct (map s_val popped) as [|v1 [|v2 vs]]; try discriminate NA. cbn [nth_error] in NA. injection NA as ->. destruct CASE as [[-> C]|[-> C]]; cbn; rewrite C; reflexivity. }
        rewrite sems_app. destruct (msg_dec (e_msg e)) as [M1|M1].
        - destruct (SEM M1) as (k & SE1 & SE2). rewrite SE1. cbn [sems]. rewrite sem_node, SE2, AB. reflexivity.
        - specialize (A6 M1). rewrite sems_app in A6. destruct (sems trees1 0) as [[vs k]|]; [|reflexivity]. cbn [sems]. rewrite sem_node. destruct (sems tp k) as [[ws k']|]; [discriminate A6|reflexivity]. }
      assert (RQ : exists l, rhs = S_INTERVAL :: S_STRING :: l).
      { clear -PR CASE. destruct CASE as [[E _]|[E _]]; rewrite E in PR; vm_compute in PR; injection PR as _ PR; eexists; rewrite <- PR; reflexivity. }
      destruct RQ as (l & RQ). rewrite <- RH in RQ. destruct popped as [|y1 [|y2 popped]]; try discriminate RQ. cbn [map] in RQ. injection RQ as SY1 SY2 _.
      inversion F2 as [|? t1 ? ? EN1 F3]; subst. inversion F3 as [|? t2 ? tp' EN2 F4]; subst. cbn [map nth_error] in NA. injection NA as NA.
      pose proof (en_tree EN2) as D. rewrite SY2 in D. destruct (derives_terminal D) as (k & -> & SK); [reflexivity|].
      pose proof (en_tree EN1) as D1. rewrite SY1 in D1. destruct (derives_terminal D1) as (k1 & -> & SK1); [reflexivity|].
      pose proof (en_leaf EN2 eq_refl) as EL. rewrite NA in EL. cbn [erase] in EL. unfold token_val in EL.
      assert (TV : t_val k = TVStr s) by (destruct (t_val k); try discriminate EL; now injection EL as ->).
      split; [split; [reflexivity|]|].
      * exists k, s. split; [|split; [exact SK|split; [exact TV|destruct CASE as [[_ CASE]|[_ CASE]]; auto]]].
        rewrite yields_app, !in_app_iff. left. right. apply in_flat_map. exists (Leaf k). split; [right; now left|now left].
      * eexists _, trees1, (Z.to_N r), k1, k, tp', s. split; [exact AS|]. split; [|auto]. rewrite atrees_cons. unfold atrees. cbn [a_stk]. rewrite map_snd_combine, rev_involutive by (rewrite map_length, !rev_length; apply (Forall2_len F1)). reflexivity.
Qed.

Lemma inv_step p ents b trees lk lost : inv ts0 e0 B p ents b trees lk lost -> good (abs ents trees lk (p_toks p)) (step p).
Proof.
  intro I. pose proof (step_cases (i_ctl I)) as SC.
  inversion SC as
    [HD E | x stk HD E1 E2 E | x stk t ts HD E1 E2 E3 E4 E5 E | x stk s' c v HD E1 E2 E3 E4 E5 E6 E
     | x stk r lhs rhs popped below stk' g HD E1 E2 E3 E4 E5 E6 E7 E8 E9 E10 E11 E12 E13 E14 E | x stk HD E1 E2 E3 E4 E].
  - eapply good_exhausted; eassumption.
  - eapply good_accept; eassumption.
  - rewrite E. eapply good_read; try eassumption; [apply (i_ctl I)|symmetry; exact E].
  - eapply good_shift; eassumption.
  - rewrite E. eapply good_reduce; try eassumption. symmetry. exact E.
  - eapply good_error; eassumption.
Qed.
Definition outcome (o : parse_out) : Prop :=
  match o with
  | PRet r e => (r = 0%Z /\ accepted ts0 e0 B e) \/ ((r = 1 \/ r = 2)%Z /\ rejected ts0 e0 B e)
  | PUB u => interval_overflow ts0 u
  | PFuel => False
  end.
(** The outcome, and how the machine of Abs.v explains it. *)
Definition explained (a0 : astate) (o : parse_out) : Prop :=
  exists a, asteps a0 a /\
  match o with
  | PRet r e => (r = 0%Z /\ astep a = AAccept /\ exists tl ts k, accepted_as tl ts k ts0 e0 B e /\ atrees a = [Node 2 [tl; ts]; Leaf k]) \/ ((r = 1 \/ r = 2)%Z /\ rejected ts0 e0 B e /\ why a r e)
  | PUB u => (interval_overflow ts0 u /\ overflows a) /\ exists a', astep a = ACont a' /\ sems (atrees a') 0 = None
  | PFuel => False
  end.
Lemma run_explained n : forall p ents b trees lk lost, inv ts0 e0 B p ents b trees lk lost -> run n p <> PFuel -> explained (abs ents trees lk (p_toks p)) (run n p).
Proof.
  induction n as [|n IH]; intros p ents b trees lk lost I NF; [now destruct NF|]. cbn [run] in *. pose proof (inv_step I) as G.
  destruct (step p) as [p'|r e|u]; cbn [good] in G; [|exists (abs ents trees lk (p_toks p)); split; [constructor|exact G]..].
  destruct G as (ents' & b' & trees' & lk' & lost' & I' & AS). destruct (IH _ _ _ _ _ _ I' NF) as (a & H & E). exists a. split; [eapply as_step; eassumption|exact E].
Qed.
Theorem yyparse_explained : ends_eof ts0 -> heap e0 (fun x => cas x (e_stmts e0) + B x) -> explained (astart ts0) (yyparse ts0 e0).
Proof.
  intros EE H. refine (@run_explained (parse_fuel (List.length ts0)) (parse_init ts0 e0) [] bottom [] [] (fun _ => 0) _ _); [apply inv_init; assumption|]. now destruct (yyparse_terminates e0 EE).
Qed.
Theorem yyparse_inv : ends_eof ts0 -> heap e0 (fun x => cas x (e_stmts e0) + B x) -> outcome (yyparse ts0 e0).
Proof.
  intros EE H. destruct (yyparse_explained EE H) as (a & _ & E). destruct (yyparse ts0 e0) as [r e|u|]; cbn [outcome]; [|apply E|exact E].
  destruct E as [(R & _ & tl & ts & k & A & _)|(R & A & _)]; [left|right; auto]. split; [exact R|]. exists tl, ts, k. exact A.
Qed.
End Step.
