(** The grammar actions that change the lexer position or the parameter list, lose memory, or report without stopping.
    No code of /repo. *)
From Verif Require Export ActSpecial.
From Coq Require Import ZifyBool ZifyNat ZifyN.
Local Open Scope nat_scope.
Set Implicit Arguments.
Unset Strict Implicit.

(** ** The end of a statement *)
Definition zero_len (e : env) : env :=
  let p := e_lpos e in set_lpos (mkPos (fl p) (fc p) (ll p) (lc p) (total p) 0) e.
Lemma zero_len_heap e F : heap e F -> heap (zero_len e) F.
Proof. intro H. constructor; apply H. Qed.
Lemma wp_take A a c fs (k : val -> M A) e F (Q : A -> env -> Prop) (R : env -> Prop) : heap e F -> 1 <= F a ->
  has F_stringLength fs = true ->
  wp (k (VObj a c (update F_stringLength (VInt (slen (e_lpos e))) fs))) (zero_len e) Q R ->
  wp (bind (take_string_length (VObj a c fs)) k) e Q R.
Proof.
  intros H P L K. unfold take_string_length. eapply (wp_put (k := k) (zero_len_heap H) P L) in K.
  unfold wp, bind in *. exact K.
Qed.
Lemma act_ok_len r lhs args e f v e' : r = 3%N \/ r = 4%N -> msg_ok (e_msg e) ->
  plain_post r lhs args (zero_len e) (fun x => ca x (e_msg e) + f x) v e' -> act_ok r lhs args e f v e'.
Proof.
  intros O MO (W & H' & S & C & D).
  destruct S as ((S1 & S2 & S3 & S4 & S5) & S6). pose proof S6 as (S7 & S8 & S9 & S10).
  cbn in S1, S2, S3, S4, S5, S7, S8, S9, S10.
  constructor; auto.
  + exists (fun _ => 0). split; [|intros _; destruct O as [-> | ->]; exact lost_blocks_none]. eapply heap_ext; [exact H'|]. intro x. cbn. rewrite S8. lia.
  + rewrite S8. exact MO.
  + rewrite S5. destruct O as [-> | ->]; reflexivity.
  + exists []. rewrite app_nil_r. destruct O as [-> | ->]; auto.
  + intro q. unfold listed. rewrite S3, C. reflexivity.
  + congruence.
Qed.
Lemma len_spec r lhs rhs : r = 3%N \/ r = 4%N ->
  (forall args e F, typed args rhs -> heap e (fun x => cas x args + F x) ->
   wp (act r args) e (plain_post r lhs args (zero_len e) F) (fun _ => False)) -> act_spec r lhs rhs.
Proof.
  intros O P args e f T MO H. specialize (P args e (fun x => ca x (e_msg e) + f x) T).
  assert (H0 : heap e (fun x => cas x args + (ca x (e_msg e) + f x))) by hp H. specialize (P H0). unfold wp in P.
  destruct (act r args e) as [v e'|e'|u]; [|destruct P..]. apply act_ok_len; assumption.
Qed.
Lemma act_3 : act_spec 3 S_statement_list [S_statement].
Proof.
  apply len_spec; [auto|]. intros args e F T H. inv_typed T. inv_obj W; open_act.
  all: apply (wp_take H); [own|reflexivity|]; apply zero_len_heap in H; pose proof (same_refl (zero_len e)) as S0; norm_fields; steps; cfin.
Qed.
Lemma act_4 : act_spec 4 S_statement_list [S_statement_list; S_semi; S_statement].
Proof.
  apply len_spec; [auto|]. intros args e F T H. inv_typed T. inv_obj W0; open_act.
  all: apply (wp_take H); [own|reflexivity|]; apply zero_len_heap in H; pose proof (same_refl (zero_len e)) as S0; norm_fields; steps; cfin.
Qed.
(** ** Aliases *)
Definition aliased (s : shape) : shape :=
  match s with
  | XFloat => AFloat | XStr => AStr | XInt => AInt | XNullLit => ANullLit | XDate => ADate | XInterval => AInterval | XStar => AStar | XParam => AParam | XCol => ACol | XFun => AFun | XUn => AUn | XBin => ABin | XBetween => ABetween | XCase => ACase | XExists => AExists | XInList => AInList | XInSel => AInSel | XSelect => ASelect | XArray => AArray | XIdx => AIdx | XExtract => AExtract | XCast => ACast
  | _ => s
  end.
Lemma expr_fields v : wt v TEx -> exists a y0 y1 y2 y3 y4 y5 y6 y7 y9 y10 y11 y12 y13 y14 y15 y16 y17,
  v = VObj a CExpr [(F_type, y0); (F_expr, y1); (F_expr2, y2); (F_exprList, y3); (F_select, y4); (F_name, y5); (F_table, y6); (F_schema, y7); (F_alias, VNull); (F_fval, y9); (F_ival, y10); (F_ival2, y11); (F_datetimeField, y12); (F_columnType, y13); (F_isBoolLiteral, y14); (F_opType, y15); (F_distinct, y16); (F_windowDescription, y17)] /\
  (y0 = VEnum EExprType 7 -> exists z, y11 = VInt z) /\
  forall w, wt w (TOpt TStr) ->
  wt (VObj a CExpr [(F_type, y0); (F_expr, y1); (F_expr2, y2); (F_exprList, y3); (F_select, y4); (F_name, y5); (F_table, y6); (F_schema, y7); (F_alias, w); (F_fval, y9); (F_ival, y10); (F_ival2, y11); (F_datetimeField, y12); (F_columnType, y13); (F_isBoolLiteral, y14); (F_opType, y15); (F_distinct, y16); (F_windowDescription, y17)]) TExA.
Proof.
  intro W. apply wt_obj_inv in W. destruct W as (a & s & fs & -> & I & H). cbn [In expr_shapes] in I.
  repeat match type of I with _ \/ _ => destruct I as [I|I] end; try (destruct I; fail); subst s;
  cbn [shape_def fst snd] in H |- *;
  (repeat match goal with H : wts _ (_ :: _) |- _ => let v := fresh "y" in let fs := fresh "fs" in let W := fresh "W" in let E := fresh "E" in
    apply wts_cons_inv in H; destruct H as (v & fs & E & W & H); subst end);
  match goal with H : wts _ [] |- _ => apply wts_nil_inv in H; subst end;
  match goal with W : wt ?y TNull |- context [(F_alias, ?y)] => pose proof (wt_null_inv W); subst y; clear W end;
  do 18 eexists; (split; [reflexivity|split]).
  all: try (intros ->; match goal with W : wt (VEnum _ _) _ |- _ => apply wt_enum_inv in W as (n & E & [K|[]]); subst n; inversion E; fail end).
  all: try (intros _; match goal with W : wt _ TInt |- exists z, ?y = VInt z => idtac; apply wt_int_inv; assumption end).
  all: intros w WW; unfold TExA, alias_shapes.
  - refine (wt_obj _ AFloat _ _ _ _); [cbn; tauto | cbn [shape_def snd]; repeat (apply wts_cons; [assumption|]); apply wts_nil].
  - refine (wt_obj _ AStr _ _ _ _); [cbn; tauto | cbn [shape_def snd]; repeat (apply wts_cons; [assumption|]); apply wts_nil].
  - refine (wt_obj _ AInt _ _ _ _); [cbn; tauto | cbn [shape_def snd]; repeat (apply wts_cons; [assumption|]); apply wts_nil].
  - refine (wt_obj _ ANullLit _ _ _ _); [cbn; tauto | cbn [shape_def snd]; repeat (apply wts_cons; [assumption|]); apply wts_nil].
  - refine (wt_obj _ ADate _ _ _ _); [cbn; tauto | cbn [shape_def snd]; repeat (apply wts_cons; [assumption|]); apply wts_nil].
  - refine (wt_obj _ AInterval _ _ _ _); [cbn; tauto | cbn [shape_def snd]; repeat (apply wts_cons; [assumption|]); apply wts_nil].
  - refine (wt_obj _ AStar _ _ _ _); [cbn; tauto | cbn [shape_def snd]; repeat (apply wts_cons; [assumption|]); apply wts_nil].
  - refine (wt_obj _ AParam _ _ _ _); [cbn; tauto | cbn [shape_def snd]; repeat (apply wts_cons; [assumption|]); apply wts_nil].
  - refine (wt_obj _ ACol _ _ _ _); [cbn; tauto | cbn [shape_def snd]; repeat (apply wts_cons; [assumption|]); apply wts_nil].
  - refine (wt_obj _ AFun _ _ _ _); [cbn; tauto | cbn [shape_def snd]; repeat (apply wts_cons; [assumption|]); apply wts_nil].
  - refine (wt_obj _ AUn _ _ _ _); [cbn; tauto | cbn [shape_def snd]; repeat (apply wts_cons; [assumption|]); apply wts_nil].
  - refine (wt_obj _ ABin _ _ _ _); [cbn; tauto | cbn [shape_def snd]; repeat (apply wts_cons; [assumption|]); apply wts_nil].
  - refine (wt_obj _ ABetween _ _ _ _); [cbn; tauto | cbn [shape_def snd]; repeat (apply wts_cons; [assumption|]); apply wts_nil].
  - refine (wt_obj _ ACase _ _ _ _); [cbn; tauto | cbn [shape_def snd]; repeat (apply wts_cons; [assumption|]); apply wts_nil].
  - refine (wt_obj _ AExists _ _ _ _); [cbn; tauto | cbn [shape_def snd]; repeat (apply wts_cons; [assumption|]); apply wts_nil].
  - refine (wt_obj _ AInList _ _ _ _); [cbn; tauto | cbn [shape_def snd]; repeat (apply wts_cons; [assumption|]); apply wts_nil].
  - refine (wt_obj _ AInSel _ _ _ _); [cbn; tauto | cbn [shape_def snd]; repeat (apply wts_cons; [assumption|]); apply wts_nil].
  - refine (wt_obj _ ASelect _ _ _ _); [cbn; tauto | cbn [shape_def snd]; repeat (apply wts_cons; [assumption|]); apply wts_nil].
  - refine (wt_obj _ AArray _ _ _ _); [cbn; tauto | cbn [shape_def snd]; repeat (apply wts_cons; [assumption|]); apply wts_nil].
  - refine (wt_obj _ AIdx _ _ _ _); [cbn; tauto | cbn [shape_def snd]; repeat (apply wts_cons; [assumption|]); apply wts_nil].
  - refine (wt_obj _ AExtract _ _ _ _); [cbn; tauto | cbn [shape_def snd]; repeat (apply wts_cons; [assumption|]); apply wts_nil].
  - refine (wt_obj _ ACast _ _ _ _); [cbn; tauto | cbn [shape_def snd]; repeat (apply wts_cons; [assumption|]); apply wts_nil].
Qed.
Lemma act_182 : act_spec 182 S_expr_alias [S_expr; S_opt_alias].
Proof.
  start. change (wt v TEx) in W. apply expr_fields in W as (a & y0 & y1 & y2 & y3 & y4 & y5 & y6 & y7 & y9 & y10 & y11 & y12 & y13 & y14 & y15 & y16 & y17 & -> & P & W).
  inv_opt W0.
  - steps. split; [apply W, wt_none|]. split; [hp H|]. split; [assumption|]. split; [intro; cnt_p; lia|reflexivity].
  - steps. specialize (W y). split; [apply W, wt_some; assumption|]. split; [hp H|]. split; [assumption|].
    split; [intro; cnt_p; cp_zero; lia|]. intro k. cbn -[erase_obj]. unfold erase_obj, param_index. cbn [lookup fld_beq fld_code N.eqb Pos.eqb].
    cbn [erase_scalar].
    destruct (erase y0) as [| | | |e' n| | | | |]; try reflexivity. destruct e'; try reflexivity.
    destruct n as [|[[[]|[]|]|[[]|[]|]|]]; try reflexivity. destruct (erase y11); reflexivity.
Qed.
(** ** Actions that lose memory *)
Lemma leaky_spec r lhs rhs : r = 58%N \/ r = 274%N ->
  (forall args e F, typed args rhs -> heap e (fun x => cas x args + F x) ->
   wp (act r args) e
     (fun v e' => exists lost, lost_blocks lost (leak_n r args) /\
        wt v (symty lhs) /\ heap e' (fun x => ca x v + (lost x + F x)) /\ same e e' /\ (forall q, cp q v = cps q args) /\
        forall k, asem r k (map erase args) = Some (erase v)) (fun _ => False)) -> act_spec r lhs rhs.
Proof.
  intros O P args e f T MO H. specialize (P args e (fun x => ca x (e_msg e) + f x) T).
  assert (H0 : heap e (fun x => cas x args + (ca x (e_msg e) + f x))) by hp H. specialize (P H0). unfold wp in P.
  destruct (act r args e) as [v e'|e'|u]; [|destruct P..]. destruct P as (lost & LK & W & H' & S & C & D).
  destruct S as ((S1 & S2 & S3 & S4 & S5) & S6). pose proof S6 as (S7 & S8 & S9 & S10).
  constructor; auto.
  + exists lost. split; [|auto]. rewrite S8. hp H'.
  + rewrite S8. exact MO.
  + rewrite S5. destruct O as [-> | ->]; reflexivity.
  + exists []. rewrite app_nil_r. destruct O as [-> | ->]; auto.
  + intro q. unfold listed. rewrite S3, C. reflexivity.
  + congruence.
Qed.
Lemma act_274 : act_spec 274 S_array_index [S_operand; S_lbrack; S_int_literal; S_rbrack].
Proof.
  apply leaky_spec; [auto|]. intros args e F T H. inv_typed T. pose proof (same_refl e) as S0. open_act.
  match goal with W : wt ?v (TObj [XInt]) |- _ => 
    assert (CP : forall q, cp q v = 0) by (inv_obj W; intro; cnt_p; cp_zero; lia);
    assert (CB : lost_blocks (fun x => ca x v) 1) by (inv_obj W; match goal with |- lost_blocks (fun x => ca x (VObj ?a _ _)) _ => eapply lost_blocks_ext; [apply (lost_blocks_one a)| |reflexivity] end; intro; cnt; lia);
    destruct (ex_intro (fun l => forall x, l x = ca x v) (fun x => ca x v) (fun x => eq_refl)) as (lost & EL) end.
  steps. exists lost. split; [eapply lost_blocks_ext; [exact CB| |reflexivity]; intro; symmetry; apply EL|]. split; [goal_wt; leaf|].
  split; [eapply heap_ext; [exact H|]; intro x; cbn beta; rewrite EL; cnt; lia|]. split; [assumption|].
  split; [intro; cnt_p; cp_zero; lia|reflexivity].
Qed.
Lemma act_58 : act_spec 58 S_create_statement [S_CREATE; S_INDEX; S_opt_not_exists; S_opt_index_name; S_ON; S_table_name; S_lpar; S_ident_commalist; S_rpar].
Proof.
  apply leaky_spec; [auto|]. intros args e F T H. inv_typed T. pose proof (same_refl e) as S0. open_act.
  steps. inv_opt W1.
  - exists (fun _ => 0). split; [exact lost_blocks_none|]. fin.
  - exists (ind a0). split; [apply lost_blocks_one|]. fin.
Qed.
Lemma wp_yyerror' A m e (Q : A -> env -> Prop) (R : env -> Prop) F : heap e F ->
  (forall e', yyerror m e = ROk tt e' -> R e') -> wp (bind (yyerror m) (fun _ => YYERROR)) e Q R.
Proof. intros H K. destruct (yyerror_eq m H) as (e2 & Y & _). unfold wp, bind. rewrite Y. unfold YYERROR. auto. Qed.
Lemma act_55 : act_spec 55 S_create_statement [S_CREATE; S_TABLE; S_opt_not_exists; S_table_name; S_FROM; S_IDENTIFIER; S_FILE; S_file_path].
Proof.
  intros args e f T MO H0. inv_typed T. pose proof (same_refl e) as S0.
  match type of H0 with heap _ (fun x => cas x ?args + _ + _) =>
    assert (H : heap e (fun x => cas x args + (ca x (e_msg e) + f x))) by hp H0; clear H0 end.
  refine (of_wp _ _). open_act. steps. destruct (casecmp s (la "tbl")) eqn:E.
  - cbn [negb]. steps. apply act_ok_plain; [reflexivity|exact MO|]. cfin. asem_tac.
  - cbn [negb]. steps.
    match goal with H : heap ?e1 _ |- _ => refine (@wp_yyerror' _ _ _ _ _ _ H _); intros e' Y; destruct (yyerror_eq err_file_type H) as (e2 & Y2 & H2 & RP & RE); rewrite Y in Y2; injection Y2 as <- end.
    destruct RE as (R1 & R2 & R3 & R4 & R5). pose proof S0 as ((S1' & S2 & S3 & S4 & S5) & S6).
    match type of H with heap _ (fun x => ind ?a0 x + _ - _) => constructor; 
      [exists (fun x => ind a0 x + (ca x y + ca x y0 + ca x v0 + ca x (e_msg e))); split; [hp H2|congruence]|right; split; [eapply reported_same; eassumption|asem_tac]|congruence..] end.
Qed.
(** ** CREATE TABLE with columns *)
Definition is_col := is_class [CColumnDefinition].
Definition is_con := is_class [CTableConstraint; CForeignKeyConstraint].
Lemma elem_cases v : wt v (TObj [YCol; YTCon; YFKey]) -> exists a c fs, v = VObj a c fs /\
  ((c = CColumnDefinition /\ wt v (TObj [YCol])) \/
   ((c = CTableConstraint \/ c = CForeignKeyConstraint) /\ wt v (TObj [YTCon; YFKey]))).
Proof.
  intro W. apply wt_obj_inv in W as (a & s & fs & -> & I & W). cbn [In] in I. destruct I as [<-|[<-|[<-|[]]]];
    do 3 eexists; (split; [reflexivity|]).
  - left. split; [reflexivity|]. refine (wt_obj _ YCol _ _ _ W). cbn. tauto.
  - right. split; [tauto|]. refine (wt_obj _ YTCon _ _ _ W). cbn. tauto.
  - right. split; [tauto|]. refine (wt_obj _ YFKey _ _ _ W). cbn. tauto.
Qed.
Lemma distribute_spec l : wtl l (TObj [YCol; YTCon; YFKey]) -> forall a b l1 l2 e F, heap e F -> 1 <= F a -> 1 <= F b ->
  (forall x, cas x l <= F x) ->
  distribute l (VVec a l1) (VVec b l2) e = ROk (VVec a (l1 ++ filter is_col l), VVec b (l2 ++ filter is_con l)) e.
Proof.
  induction l as [|v l IH]; intros W a b l1 l2 e F H HA HB HL; [cbn; now rewrite !app_nil_r|].
  apply wtl_cons_inv in W as [WV W]. destruct (elem_cases WV) as (x & c & fs & -> & D).
  assert (HX : 1 <= F x) by (specialize (HL x); cbn [cas] in HL; rewrite ca_obj, ind_refl in HL; lia).
  assert (HL' : forall x, cas x l <= F x) by (intro y; specialize (HL y); cbn [cas] in HL; lia).
  cbn [distribute]. unfold deref at 1. unfold bind at 1. rewrite (check_spec H HX).
  destruct D as [[-> _]|[[-> | ->] _]]; unfold bind at 1; unfold vpush, bind.
  - rewrite (check_spec H HA). unfold ret. rewrite (IH W a b _ _ e F H HA HB HL'). cbn [filter].
    change (is_col (VObj x CColumnDefinition fs)) with true. change (is_con (VObj x CColumnDefinition fs)) with false.
    cbn beta iota. now rewrite <- app_assoc.
  - rewrite (check_spec H HB). unfold ret. rewrite (IH W a b _ _ e F H HA HB HL'). cbn [filter].
    change (is_col (VObj x CTableConstraint fs)) with false. change (is_con (VObj x CTableConstraint fs)) with true.
    cbn beta iota. now rewrite <- app_assoc.
  - rewrite (check_spec H HB). unfold ret. rewrite (IH W a b _ _ e F H HA HB HL'). cbn [filter].
    change (is_col (VObj x CForeignKeyConstraint fs)) with false. change (is_con (VObj x CForeignKeyConstraint fs)) with true.
    cbn beta iota. now rewrite <- app_assoc.
Qed.
Lemma filter_parts l : wtl l (TObj [YCol; YTCon; YFKey]) ->
  wtl (filter is_col l) (TObj [YCol]) /\ wtl (filter is_con l) (TObj [YTCon; YFKey]) /\
  (forall x, cas x (filter is_col l) + cas x (filter is_con l) = cas x l) /\
  (forall q, cps q (filter is_col l) + cps q (filter is_con l) = cps q l) /\
  filter is_col (map erase l) = map erase (filter is_col l) /\
  filter is_con (map erase l) = map erase (filter is_con l).
Proof.
  induction l as [|v l IH]; intro W; [repeat split; try constructor|].
  apply wtl_cons_inv in W as [WV W]. destruct (IH W) as (I1 & I2 & I3 & I4 & I5 & I6). clear IH.
  destruct (elem_cases WV) as (x & c & fs & -> & D).
  destruct D as [[-> W']|[[-> | ->] W']]; cbn [filter map].
  - change (is_col (VObj x CColumnDefinition fs)) with true. change (is_con (VObj x CColumnDefinition fs)) with false.
    change (is_col (erase (VObj x CColumnDefinition fs))) with true. change (is_con (erase (VObj x CColumnDefinition fs))) with false.
    cbn beta iota. cbn [map]. rewrite I5, I6. repeat split; try assumption; try constructor; try assumption.
    + intro y. specialize (I3 y). cbn [cas]. lia.
    + intro q. specialize (I4 q). cbn [cps]. lia.
  - change (is_col (VObj x CTableConstraint fs)) with false. change (is_con (VObj x CTableConstraint fs)) with true.
    change (is_col (erase (VObj x CTableConstraint fs))) with false. change (is_con (erase (VObj x CTableConstraint fs))) with true.
    cbn beta iota. cbn [map]. rewrite I5, I6. repeat split; try assumption; try constructor; try assumption.
    + intro y. specialize (I3 y). cbn [cas]. lia.
    + intro q. specialize (I4 q). cbn [cps]. lia.
  - change (is_col (VObj x CForeignKeyConstraint fs)) with false. change (is_con (VObj x CForeignKeyConstraint fs)) with true.
    change (is_col (erase (VObj x CForeignKeyConstraint fs))) with false. change (is_con (erase (VObj x CForeignKeyConstraint fs))) with true.
    cbn beta iota. cbn [map]. rewrite I5, I6. repeat split; try assumption; try constructor; try assumption.
    + intro y. specialize (I3 y). cbn [cas]. lia.
    + intro q. specialize (I4 q). cbn [cps]. lia.
Qed.
Lemma wp_distribute A l (k : val * val -> M A) e F (Q : A -> env -> Prop) (R : env -> Prop) a b :
  wtl l (TObj [YCol; YTCon; YFKey]) -> heap e F -> 1 <= F a -> 1 <= F b -> (forall x, cas x l <= F x) ->
  wp (k (VVec a (filter is_col l), VVec b (filter is_con l))) e Q R ->
  wp (bind (distribute l (VVec a []) (VVec b [])) k) e Q R.
Proof.
  intros W H HA HB HL K. unfold wp, bind in *. rewrite (distribute_spec W [] [] H HA HB HL). exact K.
Qed.
Lemma wp_getmsg A (k : val -> M A) e (Q : A -> env -> Prop) (R : env -> Prop) : wp (k (e_msg e)) e Q R ->
  wp (bind (fun e => ROk (e_msg e) e) k) e Q R.
Proof. exact (fun H => H). Qed.
Lemma wp_YYERROR A e (Q : A -> env -> Prop) (R : env -> Prop) : R e -> wp YYERROR e Q R.
Proof. exact (fun H => H). Qed.
Lemma act_56 : act_spec 56 S_create_statement [S_CREATE; S_TABLE; S_opt_not_exists; S_table_name; S_lpar; S_table_elem_commalist; S_rpar].
Proof.
  intros args e f T MO H0. inv_typed T. pose proof (same_refl e) as S0.
  match type of H0 with heap _ (fun x => cas x ?args + _ + _) =>
    assert (H : heap e (fun x => cas x args + (ca x (e_msg e) + f x))) by hp H0; clear H0 end.
  refine (of_wp _ _). open_act. match goal with W : wt ?v (TVec (TObj [YCol;YTCon;YFKey])) |- _ => inv_vec W end. match goal with W : wtl ?v (TObj [YCol;YTCon;YFKey]) |- _ => rename W into WL end. destruct (filter_parts WL) as (P1 & P2 & P3 & P4 & P5 & P6).
  steps. unfold setColumnDefsAndConstraints. steps.
  eapply (wp_distribute WL H); [own|own|intro; cbn beta; cnt; lia|]. steps.
  apply wp_getmsg. pose proof S0 as (S1' & S2' & S3' & S4' & S5').
  assert (EQ : forall x, cas x l = cas x (filter is_col l) + cas x (filter is_con l)) by (intro x; rewrite P3; reflexivity).
  rewrite S3'. destruct (e_msg e) as [| | | | | |ma ms| | |] eqn:EM; try destruct MO; cbn [is_null negb].
  - steps. cbn [negb]. steps. apply act_ok_plain; [reflexivity|rewrite EM; exact I|]. rewrite EM. unfold plain_post.
    split; [goal_wt; leaf|]. split; [eapply heap_ext; [exact H|]; intro x; cbn beta; cnt; rewrite EQ; lia|]. split; [assumption|].
    split; [intro q; cnt_p; cp_zero; rewrite <- P4; lia|].
    intro k. cbn -[filter]. change (fun v => is_class [CColumnDefinition] v) with is_col.
    change (is_class [CColumnDefinition]) with is_col. change (is_class [CTableConstraint; CForeignKeyConstraint]) with is_con.
    rewrite P5, P6. reflexivity.
  - steps. cbn [negb]. steps. match goal with |- wp (bind (del ?v) _) _ _ _ =>
      assert (WC : wt v (symty S_create_statement)) by (goal_wt; leaf) end.
    pose proof (del_frees WC eq_refl) as L.
    eapply (@wp_freeing _ _ _ _ e3 (fun x => ca x (VStr ma ms) + f x) _ _ _ L H).
    + intro x. cbn beta. specialize (EQ x). cnt. rewrite EQ. lia.
    + intros e4 H4 S4. apply wp_YYERROR. pose proof S4 as ((T1 & T2 & T3 & T4 & T5) & (T6 & T7 & T8 & T9)).
      destruct S1' as (U1 & U2 & U3 & U4 & U5).
      constructor; [exists (fun _ => 0); split; [|auto]|left; split; [reflexivity|split]|congruence..].
      * rewrite T7, S3'. eapply heap_ext; [exact H4|]. intro; cbn beta; lia.
      * unfold err_eq. rewrite T6, T7, T8, T9. repeat split; congruence.
      * congruence.
Qed.
