(** Properties C46 (tags) and C47 (query functions of the nodes).

    Vocabulary.  [rows], [holds_row], [inside], [statement_classes] (Nodes.v): what a node of each class and tag holds; the nodes of a statement.
    [history cs p] (PropHistory.v): the program made the calls [cs] and is in [p].  [expr_isType] .. [stmt_is] (Access.v): the functions of the nodes. *)
From Verif Require Import Script PropParse PropResult History PropPrint PropHistory Nodes Access.
From Coq Require Import ZifyBool ZifyNat ZifyN.
Local Open Scope nat_scope.

(** ** Shapes that occur in statements *)
Definition live_shapes : list shape :=
  expr_shapes ++ alias_shapes ++ [XCaseElem; XHint; XUnLit; XCastLit; YBound; YFrame; YWindow; YAliasP; YAliasC; RName; RSelect; RJoin; RCross; JNat; JOn; JUsing;
    YOrder; YLimTop; YLim; YGroup; YWith; OFull; YLock; YCol; YTCon; YFKey; YRef; YUpd; YDropCol; YCsv; St KSelW MRaw; St KSelN MRaw; St KSelS MRaw] ++ map (fun k => St k MFinal) all_kinds.
Fixpoint ty_live (t : ty) : bool :=
  match t with
  | TOpt t | TVec t => ty_live t
  | TRec l => (fix go l := match l with [] => true | (_, t) :: r => ty_live t && go r end) l
  | TObj l => forallb (fun s => mem_shape s live_shapes) l
  | _ => true
  end.
Lemma live_closed : forallb (fun s => forallb (fun p => ty_live (snd p)) (snd (shape_def s))) live_shapes = true.
Proof. vm_compute. reflexivity. Qed.
Lemma live_final : ty_live TFinal = true.
Proof. vm_compute. reflexivity. Qed.
Lemma ty_live_rec l : ty_live (TRec l) = forallb (fun p => ty_live (snd p)) l.
Proof. induction l as [|[f t] l IH]; [reflexivity|]. cbn [forallb snd]. rewrite <- IH. reflexivity. Qed.

Lemma wts_In fs ts f x : wts fs ts -> In (f, x) fs -> exists t, In (f, t) ts /\ wt x t.
Proof. induction 1 as [|g v t fs ts W _ IH]; [intros []|]. intros [E|I]; [injection E as -> ->; exists t; split; [now left|exact W]|]. destruct (IH I) as (t' & I' & W'). exists t'. split; [now right|exact W']. Qed.
Lemma live_members s f t : In s live_shapes -> In (f, t) (snd (shape_def s)) -> ty_live t = true.
Proof. intros I J. pose proof (In_forallb _ _ _ live_closed I) as H. cbn beta in H. exact (In_forallb _ _ (f, t) H J). Qed.
(** Everything inside a typed value is typed. *)
Lemma inside_typed u v : inside u v -> forall t, wt v t -> ty_live t = true -> exists t', wt u t' /\ ty_live t' = true.
Proof.
  induction 1 as [v|u a c fs f x I _ IH|u a l x I _ IH|u fs f x I _ IH]; intros t W L; [eauto|..].
  - assert (K : forall t, wt (VObj a c fs) t -> ty_live t = true -> exists s, In s live_shapes /\ c = fst (shape_def s) /\ wts fs (snd (shape_def s))).
    { clear. intros t. induction t as [| | | | | |e l|t IH|t|ls|l]; intros W L; try (inversion W; fail).
      - apply wt_opt_inv in W as [E|W]; [discriminate E|auto].
      - inversion W as [| | | | | | | | | | |a' s fs' l' I' W' E1 E2]; subst. exists s. split; [|auto]. cbn [ty_live] in L. apply mem_shape_In. exact (In_forallb _ _ _ L I'). }
    destruct (K t W L) as (s & I' & -> & W'). destruct (wts_In _ _ _ _ W' I) as (t' & I2 & W2). apply (IH t' W2). exact (live_members _ _ _ I' I2).
  - assert (K : forall t, wt (VVec a l) t -> ty_live t = true -> exists t', wt x t' /\ ty_live t' = true).
    { clear - I. intros t. induction t as [| | | | | |e l0|t IH|t _|ls|l0]; intros W L; try (inversion W; fail).
      - apply wt_opt_inv in W as [E|W]; [discriminate E|auto].
      - apply wt_vec_inv in W as (a' & l' & E & W). injection E as <- <-. exists t. split; [eapply wtl_In; eassumption|exact L]. }
    destruct (K t W L) as (t' & W' & L'). eauto.
  - assert (K : forall t, wt (VRec fs) t -> ty_live t = true -> exists t', wt x t' /\ ty_live t' = true).
    { clear - I. intros t. induction t as [| | | | | |e l0|t IH|t _|ls|l0]; intros W L; try (inversion W; fail).
      - apply wt_opt_inv in W as [E|W]; [discriminate E|auto].
      - apply wt_rec_inv in W as (fs' & E & W). injection E as <-. destruct (wts_In _ _ _ _ W I) as (t' & I2 & W2). exists t'. split; [exact W2|]. rewrite ty_live_rec in L. exact (In_forallb _ _ (f, t') L I2). }
    destruct (K t W L) as (t' & W' & L'). eauto.
Qed.
Lemma object_shape a c fs : forall t, wt (VObj a c fs) t -> ty_live t = true -> exists s, In s live_shapes /\ c = fst (shape_def s) /\ wts fs (snd (shape_def s)).
Proof.
  intros t. induction t as [| | | | | |e l|t IH|t|ls|l]; intros W L; try (inversion W; fail).
  - apply wt_opt_inv in W as [E|W]; [discriminate E|auto].
  - inversion W as [| | | | | | | | | | |a' s fs' l' I' W' E1 E2]; subst. exists s. split; [|auto]. cbn [ty_live] in L. apply mem_shape_In. exact (In_forallb _ _ _ L I').
Qed.

(** ** A typed member holds what is promised *)
Definition is_enum (e : enumt) (n : N) (v : val) : bool := match v with VEnum e' n' => if enumt_beq e e' then N.eqb n n' else false | _ => false end.
Definition is_TInt (t : ty) : bool := match t with TInt => true | _ => false end.
Fixpoint promises (w : what) (t : ty) : bool :=
  match w with
  | Anything => true
  | Null => match t with TNull => true | _ => false end
  | Text => match t with TStr => true | _ => false end
  | Flag => match t with TBool => true | _ => false end
  | Number => match t with TInt => true | _ => false end
  | Double => match t with TFlt => true | _ => false end
  | One l => match t with TEnum e ns => forallb (fun n => existsb (is_enum e n) l) ns | _ => false end
  | A l => match t with TObj ss => forallb (fun s => existsb (cls_beq (fst (shape_def s))) l) ss | _ => false end
  | Items w => match t with TVec t => promises w t | _ => false end
  | Opt w => match t with TNull => true | TOpt t => promises w t | _ => promises w t end
  | TypeOfColumn => match t with TRec [(f1, t1); (f2, t2); (f3, t3); (f4, t4)] =>
      fld_beq f1 F_data_type && fld_beq f2 F_length && fld_beq f3 F_precision && fld_beq f4 F_scale &&
      match t1 with TEnum e _ => enumt_beq e EDataType | _ => false end && is_TInt t2 && is_TInt t3 && is_TInt t4 | _ => false end
  end.
Lemma promises_ok : forall w t v, promises w t = true -> wt v t -> holds w v.
Proof.
  induction w as [| | | | | |l|l|w IH|w IH|]; intros t v P W; cbn [promises] in P; cbn [holds].
  - exact I.
  - destruct t; try discriminate P. now apply wt_null_inv.
  - destruct t; try discriminate P. now apply wt_str_inv.
  - destruct t; try discriminate P. now apply wt_bool_inv.
  - destruct t; try discriminate P. now apply wt_int_inv.
  - destruct t; try discriminate P. now apply wt_flt_inv.
  - destruct t; try discriminate P. apply wt_enum_inv in W as (n & -> & I). apply (In_forallb _ _ _ P) in I. apply existsb_exists in I as (x & J & E).
    destruct x; try discriminate E. cbn [is_enum] in E. destruct (enumt_beq e e0) eqn:EE; [|discriminate E]. apply enumt_beq_eq in EE as <-. apply N.eqb_eq in E as <-. exact J.
  - destruct t; try discriminate P. apply wt_obj_inv in W as (a & s & fs & -> & I & _). apply (In_forallb _ _ _ P) in I. apply existsb_exists in I as (x & J & E). apply cls_beq_eq in E as <-. eauto 6.
  - destruct t; try discriminate P. apply wt_vec_inv in W as (a & l & -> & W). exists a, l. split; [reflexivity|]. apply Forall_forall. intros x I. eapply IH; [exact P|]. eapply wtl_In; eassumption.
  - destruct t; try (right; eapply IH; eassumption).
    + left. now apply wt_null_inv.
    + apply wt_opt_inv in W as [->|W]; [now left|right; eapply IH; eassumption].
  - destruct t as [| | | | | | | | |ls|]; try discriminate P. apply wt_rec_inv in W as (fs & -> & W).
    destruct ls as [|[f1 t1] [|[f2 t2] [|[f3 t3] [|[f4 t4] [|]]]]]; try discriminate P. rewrite !andb_true_iff in P. destruct P as (((((((P1 & P2) & P3) & P4) & P5) & P6) & P7) & P8).
    apply fld_beq_eq in P1 as ->. apply fld_beq_eq in P2 as ->. apply fld_beq_eq in P3 as ->. apply fld_beq_eq in P4 as ->.
    destruct t1; try discriminate P5. apply enumt_beq_eq in P5 as ->. destruct t2; try discriminate P6. destruct t3; try discriminate P7. destruct t4; try discriminate P8.
    repeat (apply wts_cons_inv in W as (? & ? & -> & ? & W)). apply wts_nil_inv in W as ->.
    repeat match goal with H : wt _ TInt |- _ => apply wt_int_inv in H as (? & ->) | H : wt _ (TEnum _ _) |- _ => apply wt_enum_inv in H as (? & -> & _) end. repeat eexists.
Qed.

(** ** Every live shape has a row *)
Definition row_typed (r : row) (ts : list (fld * ty)) : bool :=
  (fix go (r : row) (ts : list (fld * ty)) : bool := match r, ts with [], [] => true | (f, w) :: r', (g, t) :: ts' => fld_beq f g && promises w t && go r' ts' | _, _ => false end) r ts.
Lemma rows_complete : forallb (fun s => existsb (fun r => row_typed r (snd (shape_def s))) (rows (fst (shape_def s)))) live_shapes = true.
Proof. vm_compute. reflexivity. Qed.
Fixpoint no_twice (l : list fld) : bool := match l with [] => true | f :: l' => negb (existsb (fld_beq f) l') && no_twice l' end.
Lemma rows_distinct : forallb (fun c => forallb (fun r => no_twice (map fst r)) (rows c)) cls_all = true.
Proof. vm_compute. reflexivity. Qed.
Lemma row_holds : forall r ts fs, row_typed r ts = true -> wts fs ts -> no_twice (map fst r) = true -> holds_row r fs.
Proof.
  unfold holds_row. induction r as [|[f w] r IH]; intros [|[g t] ts] fs T W D; try discriminate T.
  - apply wts_nil_inv in W as ->. split; [reflexivity|intros ? ? []].
  - apply wts_cons_inv in W as (v & fs' & -> & Wv & W). change (fld_beq f g && promises w t && row_typed r ts = true) in T. rewrite !andb_true_iff in T. destruct T as [[E P] T]. apply fld_beq_eq in E as <-.
    cbn [map fst no_twice] in D. apply andb_true_iff in D as [N D]. destruct (IH _ _ T W D) as [K H]. split; [cbn [map fst]; now rewrite K|]. intros g u [E|I].
    + injection E as <- <-. exists v. cbn [lookup]. rewrite fld_beq_refl. split; [reflexivity|]. eapply promises_ok; eassumption.
    + destruct (H g u I) as (x & L & X). exists x. split; [|exact X]. cbn [lookup]. destruct (fld_beq g f) eqn:E; [|exact L]. apply fld_beq_eq in E as ->.
      exfalso. apply negb_true_iff in N. assert (existsb (fld_beq f) (map fst r) = true); [|congruence]. apply existsb_exists. exists f. split; [|apply fld_beq_refl]. change f with (fst (f, u)). now apply in_map.
Qed.
Lemma cls_all_In c : In c cls_all.
Proof. destruct c; vm_compute; tauto. Qed.
Lemma shape_row s fs : In s live_shapes -> wts fs (snd (shape_def s)) -> exists r, In r (rows (fst (shape_def s))) /\ holds_row r fs.
Proof.
  intros I W. pose proof (In_forallb _ _ _ rows_complete I) as H. cbn beta in H. apply existsb_exists in H as (r & J & T). exists r. split; [exact J|].
  pose proof (In_forallb _ _ _ rows_distinct (cls_all_In (fst (shape_def s)))) as D. cbn beta in D. exact (row_holds _ _ _ T W (In_forallb _ _ _ D J)).
Qed.
(** ** The statements of a program *)
Definition statement_of (p : pool) (s : val) : Prop := (exists i r, slot i (p_objs p) = Some r /\ In s (r_stmts r)) \/ (exists n, slot n (p_stmts p) = Some s).
Lemma statement_typed cs p s : history cs p -> statement_of p s -> wt s TFinal.
Proof.
  intros H S. destruct (history_ok cs p H) as (lost & [PO PS PH]). destruct S as [(i & r & E & I)|(n & E)].
  - pose proof (all_slot _ _ _ _ _ PO E) as [W _]. eapply wtl_In; eassumption.
  - exact (all_slot _ _ _ _ _ PS E).
Qed.
Lemma sumo_ge A (f : A -> nat) : forall i l a, slot i l = Some a -> f a <= sumo f l.
Proof. induction i as [|i IH]; intros [|z l] a E; try discriminate E; [cbn in E; subst z; cbn [sumo]; lia|]. rewrite slot_cons in E. cbn [sumo]. specialize (IH _ _ E). destruct z; lia. Qed.
Lemma cas_ge x l v : In v l -> ca x v <= cas x l.
Proof. induction l as [|y l IH]; [intros []|]. intros [->|I]; cbn [cas]; [lia|]. specialize (IH I). lia. Qed.
Lemma statement_held p s x : statement_of p s -> ca x s <= held p x.
Proof.
  unfold held. intros [(i & r & E & I)|(n & E)].
  - pose proof (sumo_ge _ (fun r => owned r x) _ _ _ E) as L. cbn beta in L. unfold owned in L at 1. pose proof (cas_ge x _ _ I). lia.
  - pose proof (sumo_ge _ (ca x) _ _ _ E). lia.
Qed.
Lemma caf_ge x fs f v : In (f, v) fs -> ca x v <= caf x fs.
Proof. induction fs as [|[g y] fs IH]; [intros []|]. intros [E|I]; cbn [caf]; [injection E as -> ->; lia|]. specialize (IH I). lia. Qed.
Lemma inside_ca u v x : inside u v -> ca x u <= ca x v.
Proof.
  induction 1 as [v|u a c fs f y I _ IH|u a l y I _ IH|u fs f y I _ IH]; [lia|..].
  - rewrite ca_obj. apply (caf_ge x) in I. lia.
  - rewrite ca_vec. apply (cas_ge x) in I. lia.
  - rewrite ca_rec. apply (caf_ge x) in I. lia.
Qed.
(** The block of a pointer. *)
Definition block_of (v : val) : option N := match v with VStr a _ | VObj a _ _ | VVec a _ => Some a | _ => None end.
Lemma node_live cs p s u a : history cs p -> statement_of p s -> inside u s -> block_of u = Some a -> In a (e_live (p_env p)).
Proof.
  intros H S U B. destruct (C45_every_history_is_safe cs p H) as [L _]. apply L. pose proof (inside_ca _ _ a U) as G. pose proof (statement_held p s a S) as G'.
  assert (1 <= ca a u); [|lia]. destruct u; try discriminate B; injection B as <-; [cbn [ca]|rewrite ca_obj|rewrite ca_vec]; rewrite ind_refl; lia.
Qed.

(** ** C46 *)
(** Whatever the program did: every pointer inside a statement it holds is null or points to a live block, and the members of every object hold what the table promises
    for its class and its tags. *)
Theorem C46_nodes : forall cs p s, history cs p -> statement_of p s ->
  (forall u a, inside u s -> block_of u = Some a -> In a (e_live (p_env p))) /\
  (forall a c fs, inside (VObj a c fs) s -> exists r, In r (rows c) /\ holds_row r fs).
Proof.
  intros cs p s H S. split; [intros u a U B; exact (node_live cs p s u a H S U B)|].
  intros a c fs U. destruct (inside_typed _ _ U TFinal (statement_typed cs p s H S) live_final) as (t & W & L).
  destruct (object_shape a c fs t W L) as (sh & I & -> & W'). exact (shape_row _ _ I W').
Qed.
Lemma In_memN x l : In x l -> memN x l = true.
Proof. induction l as [|y l IH]; [intros []|]. cbn [memN]. intros [->|I]; [now rewrite N.eqb_refl|]. rewrite (IH I). apply orb_true_r. Qed.
Lemma check_live a e : In a (e_live e) -> check a e = ROk tt e.
Proof. intro I. unfold check. now rewrite (In_memN _ _ I). Qed.
Lemma getf_live a c fs f v e : In a (e_live e) -> lookup f fs = Some v -> v <> VUninit -> getf f (VObj a c fs) e = ROk v e.
Proof. intros I L N. unfold getf, bind. rewrite (check_live _ _ I). unfold read_field. rewrite L. destruct v; congruence || reflexivity. Qed.
(** The class of a statement is the one its tag says, and is() tells it; the length of a statement is set. *)
Lemma final_rows : forallb (fun s => existsb (fun ct => cls_beq (fst ct) (fst (shape_def s)) && match tylook F_type_ (snd (shape_def s)) with Some t => promises (One [snd ct]) t | None => false end) statement_classes &&
  match tylook F_stringLength (snd (shape_def s)) with Some t => promises Number t | None => false end) (map (fun k => St k MFinal) all_kinds) = true.
Proof. vm_compute. reflexivity. Qed.
Definition tag_of (v : val) : N := match v with VEnum _ n => n | _ => 0%N end.
Theorem C46_statement_class : forall cs p s, history cs p -> statement_of p s ->
  exists a c fs tag n, s = VObj a c fs /\ In (c, tag) statement_classes /\ lookup F_stringLength fs = Some (VInt n) /\
    stmt_type s (p_env p) = ROk tag (p_env p) /\
    forall c' tag', In (c', tag') statement_classes ->
      exists b, stmt_isType tag' s (p_env p) = ROk b (p_env p) /\ stmt_is tag' s (p_env p) = ROk b (p_env p) /\ (b = true <-> c = c').
Proof.
  intros cs p s H S. pose proof (statement_typed cs p s H S) as W. apply wt_has in W as (sh & I & a & fs & -> & W).
  assert (Lv : In a (e_live (p_env p))) by exact (node_live cs p _ _ a H S (in_self _) eq_refl).
  pose proof (In_forallb _ _ _ final_rows I) as F. cbn beta in F. apply andb_true_iff in F as [F N]. apply existsb_exists in F as ([c tag] & J & F). cbn [fst snd] in F. apply andb_true_iff in F as [E F].
  apply cls_beq_eq in E. destruct (tylook F_type_ (snd (shape_def sh))) as [t|] eqn:ET; [|discriminate F]. destruct (tylook F_stringLength (snd (shape_def sh))) as [tl|] eqn:EL; [|discriminate N].
  destruct (wts_look _ _ _ _ W ET) as (v & L & Wv & _). pose proof (promises_ok _ _ _ F Wv) as [Q|[]]. subst v. destruct (wts_look _ _ _ _ W EL) as (v & L2 & Wl & _). destruct (promises_ok _ _ _ N Wl) as (n & ->).
  rewrite <- E. exists a, c, fs, tag, n. split; [reflexivity|]. split; [exact J|]. split; [exact L2|].
  assert (NU : tag <> VUninit) by (clear - J; intro; subst; cbn in J; repeat destruct J as [J|J]; try discriminate J; destruct J).
  split; [exact (getf_live _ _ _ _ _ _ Lv L NU)|]. intros c' tag' J'.
  exists (N.eqb (tag_of tag) (tag_of tag')). unfold stmt_is, stmt_isType, bind. rewrite (getf_live _ _ _ _ _ _ Lv L NU).
  assert (K : forall e, same_enum tag tag' e = ROk (N.eqb (tag_of tag) (tag_of tag')) e /\ (N.eqb (tag_of tag) (tag_of tag') = true <-> c = c')).
  { clear - J J'. intro e. cbn [statement_classes In] in J, J'.
    repeat destruct J as [J|J]; try (injection J as <- <-); try destruct J; repeat destruct J' as [J'|J']; try (injection J' as <- <-); try destruct J'; (split; [reflexivity|vm_compute; split; intro; congruence]). }
  split; [apply K|]. split; [apply K|]. apply (K (p_env p)).
Qed.

(** ** C47: the functions of a node *)
Definition expr_tags : list val :=
  [kExprLiteralFloat; kExprLiteralString; kExprLiteralInt; kExprLiteralNull; kExprLiteralDate; kExprLiteralInterval; kExprStar; kExprParameter; kExprColumnRef; kExprFunctionRef;
   kExprOperator; kExprSelect; kExprHint; kExprArray; kExprArrayIndex; kExprExtract; kExprCast].
Definition literal_tags : list val := [kExprLiteralFloat; kExprLiteralString; kExprLiteralInt; kExprLiteralNull; kExprLiteralDate; kExprLiteralInterval; kExprParameter].
(** [answers m e b P]: the call returns [b] without changing anything, and [b] is true exactly if [P]. *)
Definition answers (m : M bool) (e : env) (P : Prop) : Prop := exists b, m e = ROk b e /\ (b = true <-> P).
Definition is_text (v : val) : Prop := exists a s, v = VStr a s.
Definition look_as (fs : list (fld * val)) (f : fld) (v : val) : Prop := lookup f fs = Some v.

Lemma look_type r fs : In r expr_rows -> holds_row r fs -> exists t, In t expr_tags /\ lookup F_type fs = Some t.
Proof.
  intros I [_ H]. assert (K : exists t, In (F_type, One [t]) r /\ In t expr_tags).
  { cbn [expr_rows In] in I. repeat destruct I as [<-|I]; try destruct I; (eexists; split; [left; reflexivity|vm_compute; tauto]). }
  destruct K as (t & J & T). destruct (H _ _ J) as (v & L & [<-|[]]). eauto.
Qed.
Lemma look_text f r fs : existsb (fld_beq f) [F_alias; F_name; F_table] = true -> In r expr_rows -> holds_row r fs -> exists v, lookup f fs = Some v /\ (v = VNull \/ is_text v).
Proof.
  intros F I [_ H]. assert (K : exists w, In (f, w) r /\ (w = Null \/ w = Text \/ w = Opt Text)).
  { cbn [existsb] in F. rewrite !orb_true_iff in F. cbn [expr_rows In] in I. destruct F as [F|[F|[F|F]]]; try discriminate F; apply fld_beq_eq in F as ->;
    (repeat destruct I as [<-|I]; try destruct I); (eexists; split; [unfold ex_row, op_row; cbn [but but1 fld_beq fld_code N.eqb Pos.eqb In]; repeat (try (left; reflexivity); right)|auto]). }
  destruct K as (w & J & W). destruct (H _ _ J) as (v & L & V). exists v. split; [exact L|]. destruct W as [W|[W|W]]; subst w; cbn [holds] in V; [now left|now right|destruct V; [now left|now right]].
Qed.
Lemma given_text v e : v = VNull \/ is_text v -> answers (given v) e (is_text v).
Proof.
  intros [->|(a & s & ->)]; [exists false|exists true]; (split; [reflexivity|]); [split; [discriminate|intros (a & s & E); discriminate E]|split; [intros _; exists a, s; reflexivity|reflexivity]].
Qed.
Lemma text_set v : v = VNull \/ is_text v -> v <> VUninit.
Proof. intros [->|(a & s & ->)]; discriminate. Qed.
Lemma same_tag t u e : In t expr_tags -> In u expr_tags -> exists b, same_enum t u e = ROk b e /\ (b = true <-> u = t).
Proof.
  intros T U. cbn [expr_tags In] in T, U. repeat destruct T as [<-|T]; try destruct T; repeat destruct U as [<-|U]; try destruct U; (eexists; split; [reflexivity|vm_compute; split; intro; congruence]).
Qed.
Lemma orelse_answers x y e P Q : answers x e P -> answers y e Q -> answers (orelse x y) e (P \/ Q).
Proof.
  intros (b & E & B) (c & F & C). unfold answers, orelse, bind. rewrite E. destruct b; [exists true; split; [reflexivity|]|exists c; split; [exact F|]].
  - split; [|reflexivity]. intros _. left. now apply B.
  - rewrite C. split; [now right|]. intros [H|H]; [apply B in H; discriminate|exact H].
Qed.
Lemma answers_iff x e P Q : answers x e P -> (P <-> Q) -> answers x e Q.
Proof. intros (b & E & B) H. exists b. split; [exact E|]. now rewrite B. Qed.
(** What the functions of an expression return, for every expression inside any statement the program holds. *)
Theorem C47_expression_node : forall cs p s a fs, history cs p -> statement_of p s -> inside (VObj a CExpr fs) s ->
  let v := VObj a CExpr fs in let e := p_env p in
  (forall t, In t expr_tags -> answers (expr_isType t v) e (lookup F_type fs = Some t)) /\
  answers (expr_isLiteral v) e (exists t, In t literal_tags /\ lookup F_type fs = Some t) /\
  answers (expr_hasAlias v) e (exists x, lookup F_alias fs = Some x /\ is_text x) /\
  answers (expr_hasTable v) e (exists x, lookup F_table fs = Some x /\ is_text x) /\
  exists n, expr_getName v e = ROk n e /\ (n = VNull \/ is_text n) /\
    (lookup F_alias fs = Some n /\ is_text n \/ lookup F_alias fs = Some VNull /\ lookup F_name fs = Some n).
Proof.
  intros cs p s a fs H S U v e. assert (Lv : In a (e_live e)) by exact (node_live cs p s _ a H S U eq_refl).
  destruct (proj2 (C46_nodes cs p s H S) a CExpr fs U) as (r & I & R). cbn [rows] in I. destruct (look_type r fs I R) as (t & T & LT). assert (NT : t <> VUninit) by (clear - T; intro; subst; vm_compute in T; intuition discriminate).
  destruct (look_text F_alias r fs eq_refl I R) as (al & LA & A). destruct (look_text F_name r fs eq_refl I R) as (na & LN & N). destruct (look_text F_table r fs eq_refl I R) as (ta & LB & B).
  pose proof (getf_live a CExpr fs _ _ _ Lv LT NT) as GT. pose proof (getf_live a CExpr fs _ _ _ Lv LA (text_set _ A)) as GA. pose proof (getf_live a CExpr fs _ _ _ Lv LN (text_set _ N)) as GN. pose proof (getf_live a CExpr fs _ _ _ Lv LB (text_set _ B)) as GB.
  assert (IT : forall u, In u expr_tags -> answers (expr_isType u v) e (lookup F_type fs = Some u)).
  { intros u U'. unfold expr_isType, answers, bind, v. rewrite GT. destruct (same_tag u t e U' T) as (b & E & Q). exists b. split; [exact E|]. rewrite Q, LT. split; [intros ->; reflexivity|intro X; now injection X]. }
  split; [exact IT|]. split.
  { unfold expr_isLiteral. eapply answers_iff; [repeat apply orelse_answers; apply IT; vm_compute; tauto|]. split.
    - intros X. repeat destruct X as [X|X]; (eexists; split; [|exact X]; vm_compute; tauto).
    - intros (u & W & X). cbn [literal_tags In] in W. repeat destruct W as [<-|W]; try destruct W; tauto. }
  split; [|split].
  - unfold expr_hasAlias, answers, bind, v. rewrite GA. eapply answers_iff; [exact (given_text al e A)|]. rewrite LA. split; [eauto|]. intros (x & X & Y). injection X as <-. exact Y.
  - unfold expr_hasTable, answers, bind, v. rewrite GB. eapply answers_iff; [exact (given_text ta e B)|]. rewrite LB. split; [eauto|]. intros (x & X & Y). injection X as <-. exact Y.
  - unfold expr_getName, bind, v. rewrite GA. destruct A as [->|A].
    + exists na. cbn [given is_null bind ret negb]. split; [exact GN|]. split; [exact N|]. right. auto.
    + destruct A as (x & y & ->). exists (VStr x y). split; [reflexivity|]. split; [right; exists x, y; reflexivity|left; split; [exact LA|exists x, y; reflexivity]].
Qed.
Lemma inside_trans u v : inside u v -> forall w, inside v w -> inside u w.
Proof. intros H w J. induction J; [exact H|eapply in_member; eauto|eapply in_element; eauto|eapply in_struct; eauto]. Qed.
Lemma lookup_In f x fs : lookup f fs = Some x -> In (f, x) fs.
Proof. induction fs as [|[g w] fs IH]; [discriminate|]. cbn [lookup]. destruct (fld_beq f g) eqn:E; [apply fld_beq_eq in E as <-; intro Q; injection Q as ->; now left|right; auto]. Qed.
(** The functions of a table reference. *)
Theorem C47_table_node : forall cs p s a fs, history cs p -> statement_of p s -> inside (VObj a CTableRef fs) s ->
  let v := VObj a CTableRef fs in let e := p_env p in
  answers (table_hasSchema v) e (exists x, lookup F_schema fs = Some x /\ is_text x) /\
  exists n, table_getName v e = ROk n e /\ (n = VNull \/ is_text n) /\
    ((exists b gs, lookup F_alias fs = Some (VObj b CAlias gs) /\ lookup F_name gs = Some n /\ is_text n) \/ lookup F_alias fs = Some VNull /\ lookup F_name fs = Some n).
Proof.
  intros cs p s a fs H S U v e. assert (Lv : In a (e_live e)) by exact (node_live cs p s _ a H S U eq_refl).
  destruct (proj2 (C46_nodes cs p s H S) a CTableRef fs U) as (r & I & [_ R]). cbn [rows ref_rows In] in I.
  assert (K : (exists v, lookup F_schema fs = Some v /\ (v = VNull \/ is_text v)) /\ (exists v, lookup F_name fs = Some v /\ (v = VNull \/ is_text v)) /\ (exists v, lookup F_alias fs = Some v /\ (v = VNull \/ exists b gs, v = VObj b CAlias gs))).
  { assert (G : forall f w, In (f, w) r -> exists v, lookup f fs = Some v /\ holds w v) by exact R. repeat destruct I as [<-|I]; try destruct I; unfold ref_row in G; cbn [but but1 fld_beq fld_code N.eqb Pos.eqb] in G;
    (destruct (G F_schema _ (or_intror (or_introl eq_refl))) as (x & LX & X); destruct (G F_name _ (or_intror (or_intror (or_introl eq_refl)))) as (y & LY & Y); destruct (G F_alias _ (or_intror (or_intror (or_intror (or_introl eq_refl))))) as (z & LZ & Z)); cbn [holds] in X, Y, Z;
    (split; [exists x; split; [exact LX|unfold is_text; tauto]|split; [exists y; split; [exact LY|unfold is_text; tauto]|exists z; split; [exact LZ|]]]);
    try (left; exact Z); destruct Z as [Z|(b & c & gs & Z & [<-|[]])]; eauto. }
  destruct K as ((x & LX & X) & (y & LY & Y) & (z & LZ & Z)).
  split.
  - unfold table_hasSchema, answers, bind, v. rewrite (getf_live a CTableRef fs _ _ _ Lv LX (text_set _ X)). eapply answers_iff; [exact (given_text x e X)|]. rewrite LX. split; [eauto|]. intros (x' & E & T). injection E as <-. exact T.
  - unfold table_getName, bind, v. destruct Z as [->|(b & gs & ->)].
    + rewrite (getf_live a CTableRef fs _ _ _ Lv LZ) by discriminate. cbn [given is_null bind ret negb]. exists y. split; [exact (getf_live a CTableRef fs _ _ _ Lv LY (text_set _ Y))|]. split; [exact Y|]. right. auto.
    + rewrite (getf_live a CTableRef fs _ _ _ Lv LZ) by discriminate. change (given (VObj b CAlias gs) e) with (ROk true e).
      assert (U' : inside (VObj b CAlias gs) s).
      { apply (inside_trans _ (VObj a CTableRef fs)); [|exact U]. eapply in_member; [exact (lookup_In _ _ _ LZ)|apply in_self]. }
      assert (Lb : In b (e_live e)) by exact (node_live cs p s _ b H S U' eq_refl).
      destruct (proj2 (C46_nodes cs p s H S) b CAlias gs U') as (r2 & [<-|[]] & [_ R2]). destruct (R2 F_name Text (or_introl eq_refl)) as (n & LN & (c & t & ->)).
      exists (VStr c t). split; [apply (getf_live b CAlias gs _ _ _ Lb LN); discriminate|]. split; [right; exists c, t; reflexivity|]. left. exists b, gs. split; [exact LZ|]. split; [exact LN|exists c, t; reflexivity].
Qed.
Lemma after_history n p : after n = Some p -> history (firstn n program) p.
Proof. unfold after. intro E. exact (proj2 (play_ok (firstn n program) [] nothing p t_start h_start E)). Qed.
(** A program (the first calls of [PropHistory.program]) that holds a SELECT with a column in its select list. *)
Example C46_example : exists p s a fs, history (firstn 3 program) p /\ statement_of p s /\ inside (VObj a CExpr fs) s /\ lookup F_type fs = Some kExprColumnRef /\ 10 <= List.length (e_live (p_env p)).
Proof.
  assert (X : match after 3 with
    | Some p => match slot 0 (p_objs p) with Some r => match r_stmts r with VObj _ _ gs :: _ => match lookup F_selectList gs with Some (VVec _ (VObj _ CExpr fs :: _)) =>
        match lookup F_type fs with Some (VEnum EExprType n) => (n =? match kExprColumnRef with VEnum _ m => m | _ => 0 end)%N && (10 <=? List.length (e_live (p_env p))) | _ => false end
      | _ => false end | _ => false end | None => false end | None => false end = true) by (vm_compute; reflexivity).
  destruct (after 3) as [p|] eqn:E; [|discriminate X]. pose proof (after_history 3 p E) as H.
  clear E. destruct (slot 0 (p_objs p)) as [r|] eqn:SL; [|discriminate X]. destruct (r_stmts r) as [|s l] eqn:ST; [discriminate X|]. destruct s as [| | | | | | |a0 c0 gs| |]; try discriminate X.
  destruct (lookup F_selectList gs) as [v|] eqn:LK; [|discriminate X]. destruct v as [| | | | | | | |a1 vs|]; try discriminate X. destruct vs as [|v vs]; [discriminate X|]. destruct v as [| | | | | | |a c fs| |]; try discriminate X.
  destruct c; try discriminate X. destruct (lookup F_type fs) as [t|] eqn:LT; [|discriminate X]. destruct t; try discriminate X. destruct e; try discriminate X. apply andb_true_iff in X as [X Y].
  exists p, (VObj a0 c0 gs), a, fs. split; [exact H|]. split; [left; exists 0, r; split; [exact SL|rewrite ST; now left]|]. split.
  - eapply in_member; [exact (lookup_In _ _ _ LK)|]. eapply in_element; [left; reflexivity|]. apply in_self.
  - split; [|apply Nat.leb_le; exact Y]. rewrite LT. apply N.eqb_eq in X. subst. reflexivity.
Qed.
