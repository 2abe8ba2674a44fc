(** The trees the parser builds are derivations and respect the precedences; together with Complete.v: which trees it builds.
    No code of /repo. *)
From Verif Require Export Complete.
From Coq Require Import ZifyBool ZifyNat ZifyN.
Local Open Scope nat_scope.
Set Implicit Arguments.
Unset Strict Implicit.

(** ** Facts about the tables *)
Definition state_ops (s : Z) : list Z := filter (fun r => is_operator (Z.to_N r)) (reduces_of s).
Definition tail_symbol (s : Z) : bool := existsb (N.eqb (stos s)) [S_operand; S_expr].
(** First two symbols of productions, the second one a terminal. *)
Definition pairs : list (N * N) := flat_map (fun p => match snd (snd p) with X :: a :: _ => if terminal a then [(X, a)] else [] | _ => [] end) grammar.
Definition is_shift (s : Z) (a : N) : bool := match decide s (Some (Z.of_N a)) with Some (DShift _) => true | _ => false end.
(** [a] may occur on the left edge of a tree above state [s0]. *)
Definition edge_ok (s0 : Z) (a : N) : Prop := exists s1, In s0 (preds s1) /\ In (stos s1, a) pairs /\ is_shift s1 a = true.
Definition tail_check (s : Z) : bool :=
  forallb (fun r =>
    forallb (fun a => match decide s (Some a) with Some (DReduce r') => negb (r' =? r)%Z || may_end (Z.to_N r) (Z.to_N a) | _ => true end) all_tokens &&
    forallb (fun s0 => forallb (fun s1 => forallb (fun p => negb (N.eqb (fst p) (stos s1)) || may_extend (Z.to_N r) (snd p) || negb (is_shift s1 (snd p))) pairs) (filter (fun s1 => memZ s0 (preds s1)) all_states)) (preds s)) (state_ops s).
Lemma tail_checked : forallb tail_check (filter tail_symbol all_states) = true.
Proof. vm_cast_no_check (eq_refl true). Qed.
Lemma operator_tail : forallb (fun r => match production r with Some (_, rhs) => match rev rhs with X :: _ => existsb (N.eqb X) [S_operand; S_expr] | [] => false end | None => false end) operators = true.
Proof. vm_compute. reflexivity. Qed.
Lemma is_operator_In r : is_operator r = true -> In r operators.
Proof. unfold is_operator. rewrite existsb_exists. intros (x & I & E). apply N.eqb_eq in E. now subst. Qed.
Lemma operator_top s r lhs rhs l : is_operator r = true -> production r = Some (lhs, rhs) -> map stos (firstn (List.length rhs) (s :: l)) = rev rhs -> tail_symbol s = true.
Proof.
  intros O P E. pose proof (proj1 (forallb_forall _ _) operator_tail _ (is_operator_In O)) as A. cbn beta in A. rewrite P in A.
  destruct (rev rhs) as [|X Xs]; [discriminate|]. destruct rhs as [|Y Ys]; [discriminate|]. cbn [List.length firstn map] in E. injection E as E _. unfold tail_symbol. rewrite E. exact A.
Qed.
Lemma tail_facts s r : (0 <= s < 656)%Z -> tail_symbol s = true -> In r (reduces_of s) -> is_operator (Z.to_N r) = true ->
  (forall a, (0 <= a < 199)%Z -> decide s (Some a) = Some (DReduce r) -> may_end (Z.to_N r) (Z.to_N a) = true) /\
  (forall s0 a, In s0 (preds s) -> edge_ok s0 a -> may_extend (Z.to_N r) a = true).
Proof.
  intros R T I O. assert (IS : In s (filter tail_symbol all_states)) by (apply filter_In; split; [apply zrange_In; lia|exact T]).
  pose proof (proj1 (forallb_forall tail_check (filter tail_symbol all_states)) tail_checked s IS) as A. clear IS. unfold tail_check in A.
  assert (IR : In r (state_ops s)) by (apply filter_In; auto). pose proof (proj1 (forallb_forall _ _) A r IR) as C. cbn beta in C. clear A IR. apply andb_true_iff in C as [C1 C2]. split.
  - intros a RA D. assert (IA : In a all_tokens) by (apply zrange_In; lia). pose proof (proj1 (forallb_forall _ _) C1 a IA) as C. cbn beta in C. rewrite D, Z.eqb_refl in C. exact C.
  - intros s0 a I0 (s1 & P1 & PP & SH). pose proof (proj1 (forallb_forall _ _) C2 s0 I0) as C. cbn beta in C. clear C1 C2.
    assert (I1 : In s1 (filter (fun s1 => memZ s0 (preds s1)) all_states)) by (apply filter_In; split; [apply zrange_In; pose proof (preds_nonempty P1); lia|now apply memZ_In]).
    pose proof (proj1 (forallb_forall _ _) C s1 I1) as C'. cbn beta in C'. pose proof (proj1 (forallb_forall _ _) C' _ PP) as C''. cbn [fst snd] in C''.
    rewrite N.eqb_refl, SH in C''. cbn [negb orb] in C''. rewrite orb_false_r in C''. exact C''.
Qed.
(** Decisions in a reachable state. *)
Lemma decide_cases s t : (0 <= s < 656)%Z -> s <> YYFINAL -> match t with Some a => (0 <= a < 199)%Z | None => True end ->
  match decide s t with
  | None => False
  | Some DRead => t = None
  | Some (DShift s') => exists a, t = Some a /\ shift_ok s a s' = true
  | Some (DReduce r) => In r (reduces_of s) /\ reduce_ok s r = true
  | Some DError => True
  end.
Proof.
  intros R F T. pose proof (state_ok_all R F) as OK. unfold state_ok in OK.
  apply andb_prop in OK as [OK _]. apply andb_prop in OK as [OK _]. apply andb_prop in OK as [OK _]. apply andb_prop in OK as [OK ON]. apply andb_prop in OK as [OR OD].
  assert (RD : forall r, In r (reduces_of s) -> reduce_ok s r = true) by (exact (proj1 (forallb_forall _ _) OR)).
  destruct t as [a|].
  - assert (I : In (a, decide s (Some a)) (decisions s)) by (unfold decisions; apply in_map_iff; exists a; split; [reflexivity|apply zrange_In; lia]).
    pose proof (proj1 (forallb_forall _ _) OD _ I) as C. unfold decision_ok in C. cbn [fst snd] in C. destruct (decide s (Some a)) as [[|s'|r|]|]; try discriminate C; auto.
    + eauto.
    + apply memZ_In in C. auto.
  - destruct (decide s None) as [[|s'|r|]|]; try discriminate ON; auto. apply memZ_In in ON. auto.
Qed.

(** ** The invariant *)
Definition link (s0 s : Z) (t : tree) : Prop :=
  In s0 (preds s) /\ s <> 0%Z /\ derives (stos s) t /\ (forall k, t = Leaf k -> decide s0 (Some (Z.of_N (sym_of k))) = Some (DShift s)) /\ forall a, In a (left_edge t) -> edge_ok s0 a.
(** Stack entries, bottom first. *)
Fixpoint chain (s0 : Z) (l : list (Z * tree)) : Prop := match l with [] => True | (s, t) :: l' => link s0 s t /\ chain s l' end.
Fixpoint lastst (s0 : Z) (l : list (Z * tree)) : Z := match l with [] => s0 | (s, _) :: l' => lastst s l' end.
Lemma chain_app a : forall s0 b, chain s0 (a ++ b) <-> chain s0 a /\ chain (lastst s0 a) b.
Proof. induction a as [|[s t] a IH]; intros s0 b; cbn [app chain lastst]; [tauto|]. rewrite IH. tauto. Qed.
Lemma lastst_rev l s0 : lastst s0 (rev l) = match l with [] => s0 | (s, _) :: _ => s end.
Proof.
  destruct l as [|[s t] l]; [reflexivity|]. cbn [rev]. assert (A : forall a s0, lastst s0 (a ++ [(s, t)]) = s) by (induction a as [|[x y] a IH]; intro; [reflexivity|apply IH]). apply A.
Qed.
Lemma lastst_atop l : lastst 0 (rev l) = atop l.
Proof. rewrite lastst_rev. now destruct l as [|[s t] l]. Qed.
Lemma chain_path l : chain 0 (rev l) -> path (map fst l ++ [0%Z]).
Proof.
  induction l as [|[s t] l IH]; intro C; [constructor|]. cbn [rev] in C. apply chain_app in C as [C1 C2]. rewrite lastst_atop in C2. cbn [chain] in C2. destruct C2 as [(P & N0 & _) _].
  specialize (IH C1). cbn [map fst app]. destruct l as [|[s' t'] l]; cbn [map fst app atop] in *; constructor; assumption.
Qed.
Lemma chain_derives l : forall s0, chain s0 l -> derives_list (map (fun x => stos (fst x)) l) (map snd l).
Proof. induction l as [|[s t] l IH]; intros s0 C; cbn [map fst snd]; constructor; [apply C|]. eapply IH. apply C. Qed.
Definition nxt (a : astate) : N := match pend a with k :: _ => sym_of k | [] => 0%N end.
Record ainv (ts : list token) (a : astate) : Prop := {
  ai_chain : chain 0 (rev (a_stk a));
  ai_text : yields (atrees a) ++ pend a = ts;
  ai_resp : respects_all (atrees a) (nxt a) = true }.
Lemma ainv_start ts : ainv ts (astart ts).
Proof. constructor; [exact I|reflexivity|reflexivity]. Qed.
Lemma first_of_app a b nx : first_of (a ++ b) nx = first_of a (first_of b nx).
Proof. unfold first_of, yields. rewrite flat_map_app. destruct (flat_map yield a); reflexivity. Qed.
Lemma respects_all_app a b nx : respects_all (a ++ b) nx = respects_all a (first_of b nx) && respects_all b nx.
Proof. induction a as [|u a IH]; [reflexivity|]. cbn [app respects_all]. rewrite IH, first_of_app. now rewrite andb_assoc. Qed.
Lemma sym_Z t : (0 <= Z.of_N (sym_of t) < 199)%Z.
Proof. pose proof (sym_small t). lia. Qed.
Lemma left_edge_chain b r lhs rhs l : chain b l -> production r = Some (lhs, rhs) -> map (fun x => stos (fst x)) l = rhs -> forall a, In a (left_edge (Node r (map snd l))) -> edge_ok b a.
Proof.
  intros C P E a I. destruct l as [|[s1 u] l]; [destruct I|]. cbn [map snd left_edge] in I. apply in_app_or in I as [I|I]; [|destruct C as [(_ & _ & _ & _ & C) _]; auto].
  destruct l as [|[s2 v] l]; [destruct I|]. cbn [map snd] in I. destruct v as [k|q us]; [|destruct I]. destruct I as [<-|[]]. cbn [chain] in C. destruct C as [(P1 & _) [(P2 & _ & D2 & L2 & _) _]].
  exists s1. split; [exact P1|]. split.
  - unfold pairs. apply in_flat_map. exists (r, (lhs, rhs)). split; [exact (production_mem P)|]. cbn [snd]. rewrite <- E. cbn [map fst]. rewrite (derives_leaf D2), sym_terminal. now left.
  - unfold is_shift. now rewrite (L2 k eq_refl).
Qed.
Lemma ainv_step ts a b : ainv ts a -> ustep a = ACont b -> ainv ts b.
Proof.
  intros [C X Rs] E. destruct a as [stk lk toks]. unfold ustep in E. cbn [a_stk a_look a_toks] in *. destruct (Z.eqb_spec (atop stk) YYFINAL) as [|NF]; [discriminate|].
  pose proof (chain_path C) as HP. assert (HT : exists l, map fst stk ++ [0%Z] = atop stk :: l) by (destruct stk as [|[s t] stk]; cbn; eauto). destruct HT as (stl & ET). rewrite ET in HP.
  pose proof (path_cons HP) as RG.
  assert (TR : match atok lk with Some a => (0 <= a < 199)%Z | None => True end) by (destruct lk as [t|]; [apply sym_Z|exact I]). pose proof (decide_cases RG NF TR) as DC.
  destruct (decide (atop stk) (atok lk)) as [[|s'|r|]|] eqn:ED; try discriminate E.
  - destruct lk as [t|]; [discriminate DC|]. destruct toks as [|t toks]; [discriminate|]. injection E as <-. constructor; assumption.
  - destruct lk as [t|]; [|discriminate]. injection E as <-. cbn [atok] in ED. destruct DC as (a & EA & SO). cbn [atok] in EA. injection EA as <-. unfold shift_ok in SO.
    apply andb_prop in SO as [SO S0]. apply andb_prop in SO as [SM SS]. apply memZ_In in SM. apply N.eqb_eq in SS. rewrite N2Z.id in SS. constructor; cbn [a_stk a_look a_toks].
    + cbn [rev]. apply chain_app. split; [exact C|]. rewrite lastst_atop. cbn [chain]. split; [|exact I]. split; [exact SM|]. split; [lia|]. split; [rewrite SS; constructor|].
      split; [intros k EK; injection EK as <-; exact ED|intros x []].
    + rewrite atrees_cons. unfold yields in *. rewrite flat_map_app. cbn [flat_map yield]. rewrite <- app_assoc. exact X.
    + rewrite atrees_cons, respects_all_app. cbn [respects_all respects]. rewrite !andb_true_r. exact Rs.
  - destruct DC as [IR RO]. destruct (reduce_facts RO HP) as (lhs & rhs & b0 & stk' & g & P & _ & _ & R2 & _ & E1 & E2 & G & SG & PB & PG). rewrite P in E. cbv zeta in E.
    set (n := List.length rhs) in *.
    assert (LN : List.length (firstn n stk) = n).
    { apply (f_equal (@List.length _)) in E2. rewrite map_length, rev_length, firstn_length in E2. apply (f_equal (@List.length _)) in E1. rewrite skipn_length in E1. cbn [List.length] in E1.
      apply (f_equal (@List.length _)) in ET. rewrite app_length, map_length in ET. cbn [List.length] in ET. rewrite firstn_length. lia. }
    assert (F1 : map (fun x => stos (fst x)) (firstn n stk) = rev rhs).
    { rewrite <- ET, firstn_app, map_app in E2. rewrite firstn_length in LN. rewrite map_length in E2. replace (n - List.length stk) with 0 in E2 by lia. cbn [firstn map] in E2. rewrite app_nil_r, firstn_map, map_map in E2. exact E2. }
    assert (EB : atop (skipn n stk) = b0).
    { rewrite <- ET, skipn_app, map_length in E1. rewrite firstn_length in LN. replace (n - List.length stk) with 0 in E1 by lia. cbn [skipn] in E1. rewrite skipn_map in E1.
      destruct (skipn n stk) as [|[s t] l]; cbn [map fst app atop] in *; now injection E1. }
    rewrite EB, G in E. injection E as <-.
    assert (CS : chain 0 (rev (skipn n stk)) /\ chain b0 (rev (firstn n stk))).
    { rewrite <- EB, <- lastst_atop. apply chain_app. rewrite <- rev_app_distr, firstn_skipn. exact C. }
    destruct CS as [C1 C2]. assert (FR : map (fun x => stos (fst x)) (rev (firstn n stk)) = rhs) by (rewrite map_rev, F1; apply rev_involutive).
    pose proof (chain_derives C2) as DL. rewrite FR in DL. constructor; cbn [a_stk a_look a_toks].
    + cbn [rev]. apply chain_app. split; [exact C1|]. rewrite lastst_atop, EB. cbn [chain]. split; [|exact I]. assert (PP : In b0 (preds g) /\ g <> 0%Z) by (inversion PG; auto). destruct PP as [IP N0]. unfold link. split; [exact IP|]. split; [exact N0|].
      split; [rewrite SG; econstructor; [exact P|exact DL]|]. split; [discriminate|]. intros x IX. eapply left_edge_chain; [exact C2|exact P|exact FR|exact IX].
    + rewrite (atrees_split n) in X. rewrite atrees_cons. unfold yields in *. rewrite flat_map_app in *. cbn [flat_map yield]. rewrite app_nil_r. exact X.
    + rewrite (atrees_split n) in Rs. rewrite atrees_cons, respects_all_app in *. change (nxt (mkA ?x lk toks)) with (nxt (mkA stk lk toks)). set (nx := nxt (mkA stk lk toks)) in *.
      apply andb_true_iff in Rs as [Ra Rb]. cbn [respects_all]. change (first_of [] nx) with nx. rewrite andb_true_r, respects_node.
      assert (FO : first_of [Node (Z.to_N r) (map snd (rev (firstn n stk)))] nx = first_of (map snd (rev (firstn n stk))) nx) by (unfold first_of, yields; cbn [flat_map yield]; now rewrite app_nil_r).
      rewrite FO. change (atrees (mkA (skipn n stk) lk toks)) with (atrees (mkA (skipn n stk) lk toks)) in Ra. rewrite Ra, Rb, andb_true_r. cbn [andb].
      assert (NX : decide (atop stk) (Some (Z.of_N nx)) = Some (DReduce r) /\ (nx < 199)%N).
      { unfold nx, nxt, pend, alook. cbn [a_look a_toks]. destruct lk as [t|]; cbn [app atok] in *; [split; [exact ED|apply sym_small]|]. split; [apply (decide_None ED); discriminate|].
        destruct toks; [lia|apply sym_small]. }
      destruct NX as [DN NS]. destruct (is_operator (Z.to_N r)) eqn:OP.
      * rewrite <- ET in E2. assert (TS : tail_symbol (atop stk) = true). { rewrite ET in E2. eapply operator_top; eassumption. }
        destruct (tail_facts RG TS IR OP) as [T1 T2]. rewrite <- (N2Z.id nx) at 1. rewrite (T1 (Z.of_N nx) ltac:(lia) DN). cbn [andb]. unfold tail_ok. rewrite map_rev, rev_involutive.
        destruct stk as [|[s u] stk0]; [generalize n; intros [|]; reflexivity|]. generalize n. intros [|n0]; [reflexivity|]. cbn [firstn map snd].
        cbn [rev] in C. apply chain_app in C as [_ C]. rewrite lastst_atop in C. cbn [chain] in C. destruct C as [(IP & _ & _ & _ & ED2) _]. apply forallb_forall. intros x IX. eapply T2; [exact IP|]. auto.
      * unfold may_end. rewrite OP. cbn [andb negb orb]. unfold tail_ok. destruct (rev (map snd (rev (firstn n stk)))) as [|u l]; [reflexivity|]. apply forallb_forall. intros x _. unfold may_extend. now rewrite OP.
Qed.
Lemma ainv_runs ts m a b : runs m a b -> ainv ts a -> ainv ts b.
Proof. induction 1 as [a|a x b L E R IH]; intro A; [exact A|]. apply IH. eapply ainv_step; eassumption. Qed.
Lemma asteps_runs a b : asteps a b -> runs 198 a b.
Proof.
  induction 1 as [a|a x b E H IH]; [constructor|]. unfold astep in E. destruct (Nat.leb_spec 199 (List.length (a_stk a))); [discriminate|]. eapply ru_step; [unfold depth; lia| |exact IH]. exact E.
Qed.

(** ** Which trees are built *)
Lemma sym_end t : sym_of t = 0%N -> (t_code t <= 0)%Z.
Proof.
  unfold sym_of, sym_of_code. destruct (Z.leb_spec (t_code t) 0); [auto|]. destruct (@yytranslate_range (t_code t) ltac:(lia)) as (y & -> & R & Z0 & _). intro E. assert (y = 0)%Z by lia. lia.
Qed.
Lemma ends_eof_one a k b : ends_eof (a ++ k :: b) -> (t_code k <= 0)%Z -> b = [].
Proof.
  induction a as [|x a IH]; cbn [app]; intros E L.
  - inversion E; subst; [reflexivity|lia].
  - inversion E as [|? ? _ E']; subst; [destruct a; discriminate|auto].
Qed.
Lemma final_stack ts a T k : ainv ts a -> atop (a_stk a) = YYFINAL -> atrees a = [T; Leaf k] -> derives S_input T /\ sym_of k = 0%N /\ respects T 0 = true /\ yield T ++ k :: pend a = ts.
Proof.
  intros [C X R] F E. destruct a as [stk lk toks]. unfold atrees in *. cbn [a_stk] in *. rewrite <- map_rev in *. destruct stk as [|[s t] stk]; [discriminate|]. cbn [atop] in F. subst s.
  cbn [rev] in *. rewrite map_app in *. cbn [map snd] in *. destruct (rev stk) as [|[s1 t1] [|]] eqn:ES; cbn [map snd app] in E; try discriminate. 2:{ injection E as _ _ E. destruct (map snd l); discriminate. }
  injection E as -> ->. cbn [app chain map snd] in *. destruct C as ((P1 & _ & D1 & _) & (P2 & _ & D2 & _) & _). apply derives_leaf in D2. change (stos YYFINAL) with 0%N in D2.
  assert (s1 = 19%Z) as -> by (destruct P2 as [<-|[]]; reflexivity). split; [exact D1|]. split; [congruence|]. split; [|cbn [yields flat_map yield app] in X; rewrite <- app_assoc in X; exact X].
  cbn [respects_all] in R. apply andb_true_iff in R as [R _]. unfold first_of in R. cbn [yields flat_map yield app] in R. rewrite <- D2 in R. exact R.
Qed.
(** The run of the parser on the tokens [ts], which end with the end-of-input token. *)
Theorem recognises_iff ts T k : ends_eof ts ->
  (exists a, asteps (astart ts) a /\ astep a = AAccept /\ atrees a = [T; Leaf k]) <->
  derives S_input T /\ yield T ++ [k] = ts /\ sym_of k = 0%N /\ respects T 0 = true /\ need T <= 198.
Proof.
  intro EE. split.
  - intros (a & A1 & A2 & A3). pose proof (asteps_runs A1) as R. pose proof (ainv_runs R (ainv_start ts)) as AI.
    assert (F : atop (a_stk a) = YYFINAL). { unfold astep in A2. destruct (199 <=? _); [discriminate|]. destruct (Z.eqb_spec (atop (a_stk a)) YYFINAL); [assumption|]. exfalso. clear -A2.
      destruct (decide _ _) as [[| |r|]|]; try discriminate A2; [destruct (a_toks a)|destruct (a_look a)|destruct (production _) as [[]|]; [destruct (goto_of _ _)|]]; discriminate A2. }
    destruct (final_stack AI F A3) as (D & K & RS & Y). assert (PN : pend a = []). { eapply ends_eof_one; [rewrite Y; exact EE|]. now apply sym_end. }
    rewrite PN in Y. repeat (split; [assumption|]). destruct (le_lt_dec (need T) 198) as [|GT]; [assumption|]. exfalso.
    destruct (input_run D K RS) as (mid & b & X1 & X2 & _). rewrite Y in X1. destruct (runs_exhausted X1 ltac:(lia)) as (x & Z1 & Z2).
    assert (a = x) by (eapply asteps_end; [exact A1|exact Z1|rewrite A2; discriminate|rewrite Z2; discriminate]). subst x. congruence.
  - intros (D & Y & K & RS & NB). destruct (input_run D K RS) as (mid & a & X1 & _ & X2 & X3 & X4 & X5). rewrite Y in X1. exists a.
    split; [eapply runs_asteps; [exact NB|]; eapply runs_trans; eassumption|]. split; [|exact X4]. rewrite astep_ustep; [exact X3|]. unfold depth in X5. lia.
Qed.
(** A derivation that needs more stack makes the machine stop with a full stack. *)
Theorem exhausted_run T k : derives S_input T -> sym_of k = 0%N -> respects T 0 = true -> 199 <= need T -> exists x, asteps (astart (yield T ++ [k])) x /\ astep x = AExhausted.
Proof. intros D K RS NB. destruct (input_run D K RS) as (mid & a & X1 & X2 & _). eapply runs_exhausted; [exact X1|lia]. Qed.
(** At most one derivation respects the precedences. *)
Theorem derivation_unique T1 T2 k1 k2 : derives S_input T1 -> derives S_input T2 -> respects T1 0 = true -> respects T2 0 = true -> sym_of k1 = 0%N -> sym_of k2 = 0%N ->
  yield T1 ++ [k1] = yield T2 ++ [k2] -> T1 = T2.
Proof.
  intros D1 D2 R1 R2 K1 K2 Y. destruct (input_run D1 K1 R1) as (m1 & a1 & X1 & _ & X2 & X3 & X4 & _). destruct (input_run D2 K2 R2) as (m2 & a2 & Y1 & _ & Y2 & Y3 & Y4 & _). rewrite <- Y in Y1.
  assert (a1 = a2). { eapply runs_end; [eapply runs_trans; [exact X1|exact X2]|eapply runs_trans; [exact Y1|exact Y2]|rewrite X3; discriminate|rewrite Y3; discriminate]. }
  subst a2. rewrite X4 in Y4. now injection Y4.
Qed.
