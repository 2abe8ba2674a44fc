(** The actions of column_def and of parameters, and the last action of a parse.  No code of /repo. *)
From Verif Require Export ActSpecial2.
From Coq Require Import ZifyBool ZifyNat ZifyN.
Local Open Scope nat_scope.
Set Implicit Arguments.
Unset Strict Implicit.
Lemma mem_enum_map x l k e : wtl l (TEnum e k) -> mem_enum x (map erase l) = existsb (enum_is x) l.
Proof. intro W. rewrite (erase_enums W). reflexivity. Qed.
Ltac ccs := cbn -[erase mem_enum]; 
  repeat match goal with |- context [elems (fget F_constraints (erase (VObj ?a CColumnConstraints [(F_constraints, VVec ?b ?l); ?r])))] =>
    change (elems (fget F_constraints (erase (VObj a CColumnConstraints [(F_constraints, VVec b l); r])))) with (map erase l) end.
Lemma wp_put0 A B f x a c fs (k : val -> M B) (k2 : B -> M A) e F (Q : A -> env -> Prop) (R : env -> Prop) : heap e F -> 1 <= F a ->
  has f fs = true -> wp (bind (k (VObj a c (update f x fs))) k2) e Q R -> wp (bind (bind (put f x (VObj a c fs)) k) k2) e Q R.
Proof.
  intros H P L K. unfold wp, bind, put in *. unfold bind. rewrite (check_spec H P). unfold has in L.
  destruct (lookup f fs); [exact K|discriminate].
Qed.
Lemma act_66 : act_spec 66 S_column_def [S_IDENTIFIER; S_column_type; S_opt_column_constraints].
Proof.
  intros args e f T MO H0. inv_typed T. pose proof (same_refl e) as S0.
  match type of H0 with heap _ (fun x => cas x ?args + _ + _) =>
    assert (H : heap e (fun x => cas x args + (ca x (e_msg e) + f x))) by hp H0; clear H0 end.
  refine (of_wp _ _). open_act. steps. unfold trySetNullableExplicit. steps.
  pose proof (@del_plain_frees a CColumnConstraints [(F_constraints, VVec a1 l); (F_references, y0)] eq_refl) as L.
  pose proof (mem_enum_map NotNull W2) as M1. pose proof (mem_enum_map PrimaryKey W2) as M2. pose proof (mem_enum_map CNull W2) as M3.
  destruct (existsb (enum_is NotNull) l || existsb (enum_is PrimaryKey) l) eqn:E1; [destruct (existsb (enum_is CNull) l) eqn:E2|].
  - steps. cbn [fst snd].
    match goal with |- wp (bind (yyerror ?m) _) _ _ _ => destruct (yyerror_eq m H) as (e2 & Y & H2 & RP & RE) end.
    match goal with |- wp (bind (yyerror ?m) ?k) _ ?Q ?R => 
      assert (GG : wp (k tt) e2 Q R); [|unfold wp, bind in *; rewrite Y; exact GG] end.
    cbn beta.
    eapply (@wp_freeing _ _ _ _ e2 (fun x => ca x (e_msg e2) + (ind a0 x + (ind a2 x + (ind a1 x + cas x l + ca x y0) + (ca x (e_msg e) + f x))))); [exact L|exact H2| |].
    + intro x. cbn beta. cnt. lia.
    + intros e3 H3 S3. pose proof S3 as ((T1 & T2 & T3 & T4 & T5) & (T6 & T7 & T8 & T9)). destruct RE as (R1 & R2 & R3 & R4 & R5).
      destruct S1 as ((U1 & U2 & U3 & U4 & U5) & (U6 & U7 & U8 & U9)).
      destruct RP as (P1 & (ma & ms & P2) & P3 & P4).
      assert (NE : e_msg e3 <> e_msg e).
      { rewrite T7, P2. intro EE. rewrite P2, <- EE in H3. pose proof (heap_one H3 ma) as HO. cbn beta in HO. cbn [ca] in HO. rewrite ind_refl in HO. lia. }
      unfold wp, ret. constructor.
      * goal_wt; leaf.
      * exists (fun x => ca x (e_msg e)). split; [|].
        -- rewrite T7. eapply heap_ext; [exact H3|]. intro x. cbn beta. cnt. lia.
        -- intros [->|EQ]; [exact lost_blocks_none|congruence].
      * right. split; [reflexivity|]. split; [congruence|]. split; [exists ma, ms; congruence|]. split; congruence.
      * rewrite T7, P2. exact I.
      * congruence.
      * congruence.
      * congruence.
      * cbn [lpos_after]. congruence.
      * exists []. rewrite app_nil_r. split; [congruence|reflexivity].
      * intro q. unfold listed. rewrite T3, R3, U3. cnt_p. cp_zero. lia.
      * congruence.
      * intros _. ccs. rewrite M1, M2, M3, E1. reflexivity.
  - eapply wp_put0; [exact H|own|reflexivity|]. cbn [update fld_beq fld_code N.eqb Pos.eqb]. apply wp_bret. apply wp_bret. cbn [fst snd].
    eapply (@wp_freeing _ _ _ _ e0 (fun x => ind a0 x + (ca x v + (ind a1 x + cas x l + ca x y0) + (ca x (e_msg e) + f x)))); [exact L|exact H| |].
    + intro x. cbn beta. cnt. lia.
    + intros e3 H3 S3. pose proof (same_trans S1 S3) as S4. unfold wp, ret. apply act_ok_plain; [reflexivity|exact MO|]. unfold plain_post.
      split; [goal_wt; leaf|]. split; [hp H3|]. split; [assumption|]. split; [intro q; cnt_p; cp_zero; lia|].
      intro k. ccs. rewrite M1, M2, M3, E1. reflexivity.
  - apply wp_bret. apply wp_bret. cbn [snd].
    eapply (@wp_freeing _ _ _ _ e0 (fun x => ind a0 x + (ca x v + (ind a1 x + cas x l + ca x y0) + (ca x (e_msg e) + f x)))); [exact L|exact H| |].
    + intro x. cbn beta. cnt. lia.
    + intros e3 H3 S3. pose proof (same_trans S1 S3) as S4. unfold wp, ret. apply act_ok_plain; [reflexivity|exact MO|]. unfold plain_post.
      split; [goal_wt; leaf|]. split; [hp H3|]. split; [assumption|]. split; [intro q; cnt_p; cp_zero; lia|].
      intro k. ccs. rewrite M1, M2, M3, E1. cbn [andb]. reflexivity.
Qed.

Lemma plist_heap e l F : heap e F -> heap (set_plist l e) F.
Proof. intros [A B C]. split; assumption. Qed.
Lemma listed_snoc e a e' : e_plist e' = e_plist e ++ [a] -> forall q,
  listed e' q = listed e q + (if (snd q =? Z.of_nat (List.length (e_plist e)))%Z then ind a (fst q) else 0).
Proof.
  intros E [p z]. unfold listed. cbn [fst snd]. rewrite E. destruct (Z.leb_spec 0 z).
  - destruct (Z.eqb_spec z (Z.of_nat (List.length (e_plist e)))) as [->|NE].
    + rewrite Nat2Z.id, nth_error_app2, Nat.sub_diag by lia. cbn [nth_error].
      rewrite (proj2 (nth_error_None (e_plist e) (List.length (e_plist e)))); lia.
    + destruct (Nat.lt_ge_cases (Z.to_nat z) (List.length (e_plist e))).
      * rewrite nth_error_app1 by assumption. lia.
      * rewrite nth_error_app2 by assumption. rewrite (proj2 (nth_error_None (e_plist e) (Z.to_nat z))) by assumption.
        destruct (Z.to_nat z - List.length (e_plist e)) as [|k] eqn:EK; [lia|]. cbn [nth_error]. destruct k; reflexivity.
  - destruct (Z.eqb_spec z (Z.of_nat (List.length (e_plist e)))); lia.
Qed.
Lemma act_298 : act_spec 298 S_param_expr [S_qmark].
Proof.
  intros args e f T MO H. inv_typed T. refine (of_wp _ _). open_act.
  match goal with |- wp (bind (fun e => ROk (@?g e) e) ?k) ?e0 ?Q ?R => change (wp (k (g e0)) e0 Q R); cbn beta end.
  pose proof (same_refl e) as S0. repeat wstep. cbn [fst snd].
  match goal with |- wp (bind (fun e => ROk (@?g e) e) ?k) ?e0 ?Q ?R => change (wp (k (g e0)) e0 Q R); cbn beta end.
  repeat wstep. 
  match goal with |- wp (bind (fun e => ROk tt (@?g e)) ?k) ?e0 ?Q ?R => change (wp (k tt) (g e0) Q R); cbn beta end.
  unfold wp, ret. pose proof S1 as ((T1 & T2 & T3 & T4 & T5) & (T6 & T7 & T8 & T9)).
  constructor; cbn [e_msg e_stmts e_params e_loc e_lpos e_plist set_plist].
  - goal_wt; leaf.
  - exists (fun _ => 0). split; [|intros _; exact lost_blocks_none]. apply plist_heap. rewrite T7. hp H.
  - left. repeat split; assumption.
  - rewrite T7. exact MO.
  - exact T1.
  - exact T2.
  - exact T4.
  - exact T5.
  - rewrite T3. eexists. split; [reflexivity|reflexivity].
  - intro q. erewrite listed_snoc with (e := e0) (e' := set_plist _ _) by reflexivity.
    unfold listed at 1 2. rewrite T3. rewrite cp_obj. unfold pobj, pind.
    match goal with |- context [is_param ?fs] => change (is_param fs) with (Some (Z.of_nat (List.length (e_plist e)))) end.
    match goal with |- context [cpf q ?fs] => change (cpf q fs) with 0 end. cbn [cps cp]. rewrite (Z.eqb_sym (snd q)). unfold ind at 3.
    destruct (a =? fst q)%N; cbn [andb]; destruct (_ =? snd q)%Z; lia.
  - intros _. rewrite T3. cbn -[Z.of_nat]. reflexivity.
  - rewrite T7. congruence.
Qed.
(** CREATE TABLE succeeds only if no message was set before. *)
Lemma act_56_msg args e f v e' : typed args [S_CREATE; S_TABLE; S_opt_not_exists; S_table_name; S_lpar; S_table_elem_commalist; S_rpar] ->
  msg_ok (e_msg e) -> heap e (fun x => cas x args + ca x (e_msg e) + f x) -> act 56 args e = ROk v e' -> e_msg e = VNull.
Proof.
  intros T MO H0 EQ.
  assert (G : wp (act 56 args) e (fun _ _ => e_msg e = VNull) (fun _ => True)); [|unfold wp in G; rewrite EQ in G; exact G].
  clear EQ. inv_typed T. pose proof (same_refl e) as S0.
  match type of H0 with heap _ (fun x => cas x ?args + _ + _) =>
    assert (H : heap e (fun x => cas x args + (ca x (e_msg e) + f x))) by hp H0; clear H0 end.
  open_act. match goal with W : wt ?v (TVec (TObj [YCol;YTCon;YFKey])) |- _ => inv_vec W end. match goal with W : wtl ?v (TObj [YCol;YTCon;YFKey]) |- _ => rename W into WL end. destruct (filter_parts WL) as (P1 & P2 & P3 & P4 & P5 & P6).
  steps. unfold setColumnDefsAndConstraints. steps.
  eapply (wp_distribute WL H); [own|own|intro; cbn beta; cnt; lia|]. steps.
  apply wp_getmsg. pose proof S0 as (S1' & S2' & S3' & S4' & S5').
  assert (EQ : forall x, cas x l = cas x (filter is_col l) + cas x (filter is_con l)) by (intro x; rewrite P3; reflexivity).
  rewrite S3'. destruct (e_msg e) as [| | | | | |ma ms| | |] eqn:EM; try destruct MO; cbn [is_null negb].
  - steps. cbn [negb]. steps. reflexivity.
  - steps. cbn [negb]. steps. match goal with |- wp (bind (del ?v) _) _ _ _ =>
      assert (WC : wt v (symty S_create_statement)) by (goal_wt; leaf) end.
    pose proof (del_frees WC eq_refl) as L.
    eapply (@wp_freeing _ _ _ _ e3 (fun x => ca x (VStr ma ms) + f x) _ _ _ L H).
    + intro x. cbn beta. specialize (EQ x). cnt. rewrite EQ. lia.
    + intros e4 H4 S4. apply wp_YYERROR. exact I.
Qed.
