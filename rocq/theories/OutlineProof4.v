(** Printing a statement gives its outline (Outline.v); no code of /repo. *)
From Verif Require Import Base TokenCodes LexModel Ast Heap Actions ParseModel Grammar Sem Part Expr ExprProof Stmt Legal Own Print PrintCong Outline OutlineProof OutlineProof2 OutlineProof3.
From Coq Require Import String ZifyBool ZifyNat ZifyN. Import ListNotations.
Local Open Scope nat_scope.

(** printStatementInfo with any fuel. *)
Definition sprint (fuel : nat) (p : val) : prints :=
  n <-o obind (mem F_type_ p) enum_of ;
  match n with
  | 1 => p <-o cast CSelectStatement p ; print_select fuel p 0
  | 3 => p <-o cast CInsertStatement p ; print_insert fuel p 0
  | 6 => p <-o cast CCreateStatement p ; print_create p 0
  | 2 => p <-o cast CImportStatement p ; print_import fuel p 0
  | 10 => p <-o cast CExportStatement p ; print_export fuel p 0
  | 14 => p <-o cast CTransactionStatement p ; print_transaction p 0
  | _ => Some []
  end%N.
Lemma cast_id c p q : cast c p = Some q -> q = p.
Proof. destruct p; try discriminate. cbn [cast]. destruct (cls_beq c c0); [|discriminate]. now intro E; injection E as <-. Qed.
Lemma sprint_info v : printStatementInfo v = sprint (print_fuel v) v.
Proof.
  unfold printStatementInfo, sprint. destruct (obind (mem F_type_ v) enum_of) as [n|]; [|reflexivity]. cbn [obind].
  assert (C : forall c (f : nat -> val -> prints), (p <-o cast c v ; f (print_fuel p) p) = (p <-o cast c v ; f (print_fuel v) p)) by (intros c f; destruct (cast c v) as [p|] eqn:E; [apply cast_id in E as ->|]; reflexivity).
  rewrite (C CSelectStatement (fun n p => print_select n p 0)), (C CInsertStatement (fun n p => print_insert n p 0)), (C CImportStatement (fun n p => print_import n p 0)), (C CExportStatement (fun n p => print_export n p 0)). reflexivity.
Qed.
Lemma each_ext (f g : val -> prints) l : (forall x, In x l -> f x = g x) -> each f l = each g l.
Proof. induction l as [|x l IH]; intro H; [reflexivity|]. cbn [each]. rewrite H by now left. rewrite IH; [reflexivity|]. intros; apply H; now right. Qed.
Lemma sprint_enough v n m : vsize v < n -> vsize v < m -> sprint n v = sprint m v.
Proof.
  intros N M. destruct (enough n m) as (E & _ & _ & _ & Sl). unfold sprint. destruct (obind (mem F_type_ v) enum_of) as [t|]; [|reflexivity]. cbn [obind].
  assert (C : forall c (f g : val -> prints), f v = g v -> (p <-o cast c v ; f p) = (p <-o cast c v ; g p)) by (intros c f g H; destruct (cast c v) as [p|] eqn:D; [apply cast_id in D as ->; exact H|reflexivity]).
  assert (EE : forall f x i, mem f v = Some x -> print_expr n x i = print_expr m x i) by (intros f x i Mx; pose proof (mem_size _ _ _ Mx); apply (E x i Logic.I); lia).
  assert (SS : forall f x i, mem f v = Some x -> print_select n x i = print_select m x i) by (intros f x i Mx; pose proof (mem_size _ _ _ Mx); apply (Sl x i Logic.I); lia).
  rewrite (C CSelectStatement (fun p => print_select n p 0) (fun p => print_select m p 0)), (C CInsertStatement (fun p => print_insert n p 0) (fun p => print_insert m p 0)), (C CImportStatement (fun p => print_import n p 0) (fun p => print_import m p 0)), (C CExportStatement (fun p => print_export n p 0) (fun p => print_export m p 0)); [reflexivity| | | |].
  - unfold print_export, on. destruct (mem F_tableName v); [|reflexivity]. destruct (mem F_select v) eqn:M1; [|reflexivity]. cbn [obind]. now rewrite (SS _ _ _ M1).
  - unfold print_import, on, Print.if_some. destruct (mem F_whereClause v) eqn:M1; [|reflexivity]. cbn [obind]. now rewrite (EE _ _ _ M1).
  - unfold print_insert, on, Print.if_some. destruct (obind (mem F_type v) enum_of); [|reflexivity]. cbn [obind].
    replace (x <-o mem F_values v; l <-o items_of x; each (fun y => print_expr n y (0 + 2)) l) with (x <-o mem F_values v; l <-o items_of x; each (fun y => print_expr m y (0 + 2)) l).
    + destruct (mem F_select v) eqn:M1; [|reflexivity]. cbn [obind]. now rewrite (SS _ _ _ M1).
    + destruct (mem F_values v) eqn:M1; [|reflexivity]. cbn [obind]. destruct (items_of v0) eqn:It; [|reflexivity]. cbn [obind]. apply each_ext. intros y Iy. pose proof (mem_size _ _ _ M1). pose proof (items_size _ _ _ It Iy). symmetry. apply (E y _ Logic.I); lia.
  - now apply (Sl v 0 Logic.I).
Qed.
Lemma sprint_ev v l : ev (fun n => sprint n v) l -> printStatementInfo v = Some l.
Proof. intros (n0 & E). rewrite sprint_info, <- (E (Nat.max n0 (S (vsize v)))) by lia. apply sprint_enough; unfold print_fuel; lia. Qed.
(** Hints and the length of the text are not printed. *)
Lemma sprint_with f x v n : In f [F_hints; F_stringLength] -> sprint n (with_ [(f, x)] v) = sprint n v.
Proof.
  intro I. assert (OT : forall g, fld_beq f g = false -> mem g (with_ [(f, x)] v) = mem g v) by (intros g B; rewrite mem_with; now rewrite B).
  assert (CT : forall c (b : val -> prints), b (with_ [(f, x)] v) = b v -> (p <-o cast c (with_ [(f, x)] v) ; b p) = (p <-o cast c v ; b p)) by (intros c b H; destruct v; try reflexivity; cbn [with_ cast]; destruct (cls_beq c c0); [exact H|reflexivity]).
  assert (OT2 : forall g, negb (fld_beq F_hints g || fld_beq F_stringLength g) = true -> mem g (with_ [(f, x)] v) = mem g v) by (intros g B; apply OT; destruct I as [<-|[<-|[]]]; apply negb_true_iff in B; apply orb_false_iff in B; apply B). clear OT I.
  unfold sprint. rewrite OT2 by reflexivity. destruct (obind (mem F_type_ v) enum_of) as [t|]; [|reflexivity]. cbn [obind].
  assert (E1 : print_select n (with_ [(f, x)] v) 0 = print_select n v 0).
  { destruct n as [|n]; [reflexivity|]. rewrite !select_pieces. rewrite (head_same n v), (tail_same n v); try (apply OT2; reflexivity). 2:{ intros g Ig. apply OT2. cbn in Ig. decompose [or] Ig; subst; try reflexivity; contradiction. } unfold p_lockings, p_sets, Print.if_some. now rewrite !OT2 by reflexivity. }
  assert (E2 : print_insert n (with_ [(f, x)] v) 0 = print_insert n v 0) by (unfold print_insert, on, Print.if_some; now rewrite !OT2 by reflexivity).
  assert (E3 : print_create (with_ [(f, x)] v) 0 = print_create v 0) by (unfold print_create, on, Print.if_some; now rewrite !OT2 by reflexivity).
  assert (E4 : print_import n (with_ [(f, x)] v) 0 = print_import n v 0) by (unfold print_import, print_file_type, on, Print.if_some; now rewrite !OT2 by reflexivity).
  assert (E5 : print_export n (with_ [(f, x)] v) 0 = print_export n v 0) by (unfold print_export, print_file_type, on, Print.if_some; now rewrite !OT2 by reflexivity).
  assert (E6 : print_transaction (with_ [(f, x)] v) 0 = print_transaction v 0) by (unfold print_transaction, on, Print.if_some; now rewrite !OT2 by reflexivity).
  rewrite (CT CSelectStatement (fun p => print_select n p 0) E1), (CT CInsertStatement (fun p => print_insert n p 0) E2), (CT CCreateStatement (fun p => print_create p 0) E3), (CT CImportStatement (fun p => print_import n p 0) E4), (CT CExportStatement (fun p => print_export n p 0) E5), (CT CTransactionStatement (fun p => print_transaction p 0) E6). reflexivity.
Qed.

Section Sub.
Variable sub : kind * part -> nat -> nat -> list line.
Local Notation prints_part := (prints_part sub).
Local Notation all_print l := (forall c, In c l -> prints_part c).
Lemma shown_select_info v s : shows v s -> ev (fun n => sprint n v) (select_shown s 0).
Proof.
  intro H. pose proof (shows_select _ _ H 0) as (n0 & E). destruct H as ((fs & -> & _) & T & _). exists n0. intros n L. unfold sprint. rewrite T. cbn [obind enum_of kStmtSelect cast cls_beq cls_code]. now apply E.
Qed.
(** Literals *)
Lemma lit_prints l k i : q_ok (p_lit l) k = true -> ev (fun n => print_expr n (q_obj (p_lit l) k) i) (xlines sub (lit_ex l) 0 i).
Proof.
  intro OK. cbn [p_lit q_obj q_ok] in *. assert (K : xobj (lit_ex l) k = xobj (lit_ex l) 0) by (destruct l; try reflexivity; discriminate OK). rewrite K. apply ex_prints; [destruct l; try reflexivity; exact OK|destruct l; intros ? []].
Qed.
Lemma lit_node l k : q_ok (p_lit l) k = true -> present (q_obj (p_lit l) k) = Some true.
Proof. intro OK. apply node_present, xobj_node. destruct l; try reflexivity; exact OK. Qed.
Lemma xlit_prints l k i : q_ok (p_xlit l) k = true -> ev (fun n => print_expr n (q_obj (p_xlit l) k) i) (lit_lines sub l i).
Proof.
  destruct l as [l|z|f|z u p|s u]; cbn [p_xlit lit_lines]; intro OK; [now apply lit_prints| | | |]; args; (apply ev_unop; [reflexivity|]).
  - exact (ex_prints sub (XInt z) eq_refl (fun c H => match H with end) 0 (i + 1)).
  - exact (ex_prints sub (XFlt f) eq_refl (fun c H => match H with end) 0 (i + 1)).
  - exact (ex_prints sub (XInterval z u p) eq_refl (fun c H => match H with end) 0 (i + 1)).
  - apply (lit_prints (VLIntervalText s u)). cbn [seq_ seqp q_ok all_ok] in OK. rewrite !andb_true_r in OK. cbn [kw token_part q_ok] in OK. exact OK.
Qed.
Lemma clit_prints l k i : q_ok (p_clit l) k = true -> ev (fun n => print_expr n (q_obj (p_clit l) k) i) (clit_lines sub l i).
Proof.
  destruct l as [l|l t]; cbn [p_clit clit_lines]; intro OK; [now apply xlit_prints|]. args. apply (ev_cast sub). apply xlit_prints. cbn [seq_ seqp q_ok all_ok] in OK. cbn [kw token_part q_ok q_params ptype andb] in OK. rewrite ?andb_true_r, ?Nat.add_0_r in OK. exact OK.
Qed.
Lemma clits_print l i : forall k, all_ok (map p_clit l) k = true -> ev (fun n => each (fun x => print_expr n x i) (values (map p_clit l) k)) (flat_map (fun l => clit_lines sub l i) l).
Proof.
  induction l as [|x l IH]; intros k OK; [now exists 0|]. cbn [map all_ok] in OK. apply andb_prop in OK as [O1 O2]. destruct (clit_prints x k i O1) as (n1 & E1). destruct (IH _ O2) as (n2 & E2). exists (Nat.max n1 n2). intros n L. cbn [map values numbered_list each flat_map]. unfold values in E2. rewrite E1, E2 by lia. reflexivity.
Qed.
Lemma columns_print cols k v : mem F_columns v = Some (q_obj (p_columns cols) k) -> ev (fun n => Print.if_some F_columns v (fun c => l <-o items_of c ; cat [txt "Columns" (0 + 1); each (fun x => inprint_str x (0 + 2)) l])) (headed 1 "Columns" cols (map (said_ 2) cols)).
Proof.
  intro M. eapply (ev_if _ _ _ (fun n c => _)); [exact M|]. destruct cols as [|c cols]; [left; auto|right]. unfold p_columns. args. rewrite idents. split; [reflexivity|]. cbn [vec items_of obind headed]. apply ev_head, ev_one. exists 0. intros n _. apply strs_shown.
Qed.
Lemma columns_total cols : q_params (p_columns cols) = 0.
Proof. destruct cols as [|c cols]; [reflexivity|]. cbn [p_columns paren seq_ seqp q_params]. rewrite !total_cons, idents_params. reflexivity. Qed.
Definition one_of_types (f : val) : Prop := In f [kImportCSV; kImportTbl; kImportBinary; kImportAuto].
Lemma file_type_known w f : file_type w = Some f -> one_of_types f.
Proof. unfold file_type. repeat match goal with |- context [if ?b then _ else _] => destruct b end; intro E; try discriminate E; injection E as <-; cbn; tauto. Qed.
Lemma format_known o : one_of_types (hd kImportAuto (formats o)).
Proof.
  assert (A : Forall one_of_types (formats o)). { induction o as [|x o IH]; [constructor|]. cbn [formats flat_map]. apply Forall_app. split; [|exact IH]. destruct x; try constructor. destruct (file_type w) eqn:E; [|constructor]. constructor; [|constructor]. eapply file_type_known, E. }
  destruct (formats o); cbn [hd]; [cbn; tauto|now inversion A].
Qed.
Lemma type_shown v f : mem F_type v = Some f -> one_of_types f -> print_file_type v 0 = Some [word 1 (file_type_name f)].
Proof. intros M I. unfold print_file_type. rewrite M. cbn in I. decompose [or] I; subst; try reflexivity. contradiction. Qed.
Lemma options_total b o : q_params (p_options b o) = 0.
Proof. destruct o; [reflexivity|]. destruct b; reflexivity. Qed.
Ltac members v := match eval unfold v in v with obj _ ?l => let rec go l := lazymatch l with (?f, ?x) :: ?l' => let M := fresh "M" in assert (M : mem f v = Some x) by reflexivity; go l' | _ => idtac end in go l end.
Lemma stmt_prints s k : stmt_ok s = true -> all_print (stmt_parts s) -> q_ok (p_stmt s) k = true -> ev (fun n => sprint n (q_obj (p_stmt s) k)) (stmt_lines sub s k).
Proof.
  assert (NOTHING : forall v, (exists t, mem F_type_ v = Some (VEnum EStatementType t) /\ In t [0; 4; 5; 7; 8; 9; 11; 12; 13]%N) -> ev (fun n => sprint n v) []).
  { intros v (t & M & I). exists 0. intros n _. unfold sprint. rewrite M. cbn in I. decompose [or] I; subst; try reflexivity. contradiction. }
  assert (CREATE : forall v t, of_class CCreateStatement v -> mem F_type_ v = Some kStmtCreate -> mem F_tableName v = Some (name_of t) -> mem F_filePath v = Some VNull -> ev (fun n => sprint n v) [word 0 "CreateStatement"; said_ 1 (t_name t)]).
  { intros v t (fs & -> & _) M0 M1 M2. exists 0. intros n _. unfold sprint. rewrite M0. cbn [obind enum_of kStmtCreate cast cls_beq cls_code N.eqb Pos.eqb Z.eqb]. unfold print_create, on, Print.if_some. rewrite M1, M2. reflexivity. }
  intros F PP OK. destruct s; cbn [stmt_ok stmt_parts p_stmt stmt_lines] in *; try (apply NOTHING; first [destruct d|destruct args|idtac]; eexists; (split; [reflexivity|cbn; tauto])).
  - (* SELECT *) destruct (select_prints sub w s k F PP) as (sh & H & E). rewrite E. now apply shown_select_info.
  - (* INSERT VALUES *) cbn [seq_ seqp q_ok all_ok] in OK. cbn [kw token_part q_ok q_params andb] in OK. repeat (apply andb_prop in OK as [? OK] || rewrite ?andb_true_r in OK).
    args. rewrite tname_params, columns_total in *. args. rewrite ?Nat.add_0_r in *. set (v := obj _ _). members v. assert (M5 : mem F_type_ v = Some kStmtInsert) by reflexivity. assert (CV : cast CInsertStatement v = Some v) by reflexivity. clearbody v.
    unfold sprint. rewrite M5. cbn [obind enum_of kStmtInsert]. rewrite CV. cbn [obind]. unfold print_insert. rewrite M. cbn [obind enum_of kInsertValues]. apply ev_head. apply (ev_cat (fun n => _) (fun n => [_; _]) [_]); [eapply (ev_on _ _ _ (fun n x => inprint_str x 1)); [exact M1|apply ev_str]|].
    apply (ev_cat (fun n => _) (fun n => [_])); [eapply columns_print; exact M2|]. apply ev_one, ev_head, ev_one. eapply (ev_on _ _ _ (fun n v => l <-o items_of v ; each (fun x => print_expr n x 2) l)); [exact M3|]. cbn [plist q_obj vec items_of obind]. apply clits_print. repeat match goal with H : _ && _ = true |- _ => apply andb_prop in H as [? H] end. assumption.
  - (* INSERT SELECT *) args. rewrite tname_params, columns_total. args. set (v := obj _ _). members v. assert (M5 : mem F_type_ v = Some kStmtInsert) by reflexivity. assert (CV : cast CInsertStatement v = Some v) by reflexivity. clearbody v.
    unfold sprint. rewrite M5. cbn [obind enum_of kStmtInsert]. rewrite CV. cbn [obind]. unfold print_insert. rewrite M. cbn [obind enum_of kInsertSelect]. apply ev_head. apply (ev_cat (fun n => _) (fun n => [_; _]) [_]); [eapply (ev_on _ _ _ (fun n x => inprint_str x 1)); [exact M1|apply ev_str]|].
    apply (ev_cat (fun n => _) (fun n => [_])); [eapply columns_print; exact M2|]. apply ev_one. eapply (ev_on _ _ _ (fun n x => print_select n x 1)); [exact M3|]. apply shows_select. now apply query_prints.
  - (* CREATE TABLE *) apply CREATE; [apply of_new|reflexivity..].
  - apply CREATE; [apply of_new|reflexivity..].
  - args. set (v := obj _ _). members v. assert (M5 : mem F_type_ v = Some kStmtCreate) by reflexivity. assert (CV : cast CCreateStatement v = Some v) by reflexivity. clearbody v. exists 0. intros n _. unfold sprint. rewrite M5. cbn [obind enum_of kStmtCreate]. rewrite CV. cbn [obind]. unfold print_create, on, Print.if_some. rewrite M2, M3. reflexivity.
  - apply CREATE; [apply of_new|reflexivity..].
  - apply CREATE; [apply of_new|reflexivity..].
  - (* transactions *) exists 0. intros n _. destruct t; reflexivity.
  - (* IMPORT *) args. set (v := obj _ _). members v. assert (M5 : mem F_type_ v = Some kStmtImport) by reflexivity. assert (CV : cast CImportStatement v = Some v) by reflexivity. assert (M6 : mem F_whereClause v = Some VNull) by reflexivity. clearbody v. exists 0. intros n _. unfold sprint. rewrite M5. cbn [obind enum_of kStmtImport]. rewrite CV. cbn [obind]. unfold print_import, on, Print.if_some. cbn [ftype_part q_obj] in M.
    assert (OK' : exists f, file_type ty = Some f) by (cbn [seq_ seqp q_ok all_ok kw token_part ftype_part andb] in OK; destruct (file_type ty); [eauto|discriminate OK]). destruct OK' as (f & FT). rewrite FT in *. rewrite (type_shown _ _ M (file_type_known _ _ FT)), M0, M2, M6. reflexivity.
  - (* COPY FROM *) args. rewrite tname_params, options_total. args. set (v := obj _ _). members v. assert (M6 : mem F_type_ v = Some kStmtImport) by reflexivity. assert (CV : cast CImportStatement v = Some v) by reflexivity. clearbody v.
    unfold sprint. rewrite M6. cbn [obind enum_of kStmtImport]. rewrite CV. cbn [obind]. unfold print_import. rewrite (type_shown _ _ M (format_known o)). unfold on at 1 2. rewrite M0, M2. cbn [obind]. cbn [app]. apply ev_head. apply (ev_cat (fun n => _) (fun n => [_; _; _]) [_]); [apply ev_str|]. apply (ev_cat (fun n => _) (fun n => [_; _]) [_]); [apply ev_some|]. apply (ev_cat (fun n => _) (fun n => [_]) [_]); [apply ev_str|].
    apply ev_one. eapply (ev_if _ _ _ (fun n x => cat [txt "WHERE:" 1; print_expr n x 2])); [exact M3|]. destruct w as [e|]; [right|left; auto]. unfold p_where. args. cbn [pex q_obj Legal.if_some of_opt] in *. split; [now apply node_present, xobj_node|]. apply ev_head, ev_one. now apply ex_prints.
  - (* COPY TO *) args. set (v := obj _ _). members v. assert (M6 : mem F_type_ v = Some kStmtExport) by reflexivity. assert (CV : cast CExportStatement v = Some v) by reflexivity. clearbody v. exists 0. intros n _. unfold sprint. rewrite M6. cbn [obind enum_of kStmtExport]. rewrite CV. cbn [obind]. unfold print_export, on. rewrite (type_shown _ _ M (format_known o)), M0, M2. reflexivity.
  - (* COPY query TO *) args. set (v := obj _ _). members v. assert (M6 : mem F_type_ v = Some kStmtExport) by reflexivity. assert (CV : cast CExportStatement v = Some v) by reflexivity. assert (M5 : mem F_tableName v = Some VNull) by reflexivity. clearbody v.
    unfold sprint. rewrite M6. cbn [obind enum_of kStmtExport]. rewrite CV. cbn [obind]. unfold print_export. rewrite (type_shown _ _ M (format_known o)). unfold on at 1 2. rewrite M0, M5. cbn [obind present]. cbn [app]. apply ev_head. apply (ev_cat (fun n => _) (fun n => [_; _]) [_]); [apply ev_str|]. apply (ev_cat (fun n => _) (fun n => [_]) [_]); [apply ev_some|]. apply ev_one.
    eapply (ev_on _ _ _ (fun n x => print_select n x 1)); [exact M1|]. apply shows_select. now apply query_prints.
Qed.

Lemma hinted_prints s k : stmt_ok (fst s) = true -> all_print (stmt_parts (fst s)) -> q_ok (p_hinted s) k = true -> ev (fun n => sprint n (q_obj (p_hinted s) k)) (stmt_lines sub (fst s) k).
Proof.
  intros F PP OK. unfold p_hinted in *. destruct (hintable (fst s)); [|now apply stmt_prints]. args. eapply ev_ext; [intro n; apply sprint_with; cbn; auto|]. apply stmt_prints; auto. cbn [seq_ seqp q_ok all_ok] in OK. rewrite andb_true_r in OK. now apply andb_prop in OK.
Qed.
Lemma script_prints l : Forall (fun s => stmt_ok (fst s) = true /\ all_print (stmt_parts (fst s))) l -> forall k, all_ok (map p_hinted l) k = true ->
  map printStatementInfo (map (with_ [(F_stringLength, VInt 0)]) (values (map p_hinted l) k)) = map Some (script_lines sub l k).
Proof.
  induction 1 as [|[s h] l [F PP] _ IH]; intros k OK; [reflexivity|]. cbn [map all_ok] in OK. apply andb_prop in OK as [O1 O2]. cbn [map values numbered_list script_lines]. f_equal; [|apply IH; exact O2].
  apply sprint_ev. eapply ev_ext; [intro n; apply sprint_with; cbn; auto|]. now apply (hinted_prints (s, h)).
Qed.
(** ** Subqueries and windows *)
Lemma window_present w k : present (q_obj (p_window w) k) = Some true. Proof. reflexivity. Qed.
Lemma shows_present v s : shows v s -> present v = Some true. Proof. intros ((fs & -> & _) & _). reflexivity. Qed.
Lemma legal_prints (CO : coherent sub) c : legal c -> prints_part c.
Proof.
  destruct CO as (C1 & C2 & C3). induction 1 as [q F OK L IH|w F OK L IH|w s F OK L IH]; intros k i; cbn [fst snd].
  - rewrite C1 by (auto; split; auto). pose proof (proj1 (query_prints sub) q F IH k) as S. split; [eapply shows_present, S|now apply shows_select].
  - rewrite C2 by (auto; split; auto). split; [apply window_present|now apply window_prints].
  - rewrite C3 by (auto; split; auto). destruct (select_prints sub w s k F IH) as (sh & S & E). rewrite E. split; [eapply shows_present, S|now apply shows_select].
Qed.
End Sub.
(** There is an assignment of outlines to subqueries and windows, and all such assignments agree on the legal ones. *)
Definition printed (c : kind * part) (k i : nat) : list line :=
  let v := q_obj (snd c) k in match match fst c with KWindow => print_window (S (vsize v)) v i | _ => print_select (S (vsize v)) v i end with Some l => l | None => [] end.
Lemma ev_window v i l : ev (fun n => print_window n v i) l -> print_window (S (vsize v)) v i = Some l.
Proof. intros (n0 & E). destruct (enough (S (vsize v)) (Nat.max n0 (S (vsize v)))) as (_ & _ & W & _). rewrite <- (E (Nat.max n0 (S (vsize v)))) by lia. apply (W v i Logic.I); lia. Qed.
Lemma ev_select v i l : ev (fun n => print_select n v i) l -> print_select (S (vsize v)) v i = Some l.
Proof. intros (n0 & E). destruct (enough (S (vsize v)) (Nat.max n0 (S (vsize v)))) as (_ & _ & _ & _ & W). rewrite <- (E (Nat.max n0 (S (vsize v)))) by lia. apply (W v i Logic.I); lia. Qed.
Lemma printed_legal c : legal c -> prints_part printed c.
Proof.
  induction 1 as [q F OK L IH|w F OK L IH|w s F OK L IH]; intros k i; cbn [fst snd].
  - pose proof (proj1 (query_prints printed) q F IH k) as S. split; [eapply shows_present, S|]. pose proof (shows_select _ _ S i) as E. unfold printed at 1. cbn [fst snd]. rewrite (ev_select _ _ _ E). exact E.
  - split; [apply window_present|]. pose proof (window_prints printed w F IH k i) as E. unfold printed at 1. cbn [fst snd]. rewrite (ev_window _ _ _ E). exact E.
  - destruct (select_prints printed w s k F IH) as (sh & S & _). split; [eapply shows_present, S|]. pose proof (shows_select _ _ S i) as E. unfold printed at 1. cbn [fst snd]. rewrite (ev_select _ _ _ E). exact E.
Qed.
Lemma printed_coherent : coherent printed.
Proof.
  split; [|split].
  - intros q k i F [OK L]. unfold printed at 1. cbn [fst snd]. now rewrite (ev_select _ _ _ (shows_select _ _ (proj1 (query_prints printed) q F (fun c I => printed_legal c (L c I)) k) i)).
  - intros w k i F [OK L]. unfold printed at 1. cbn [fst snd]. now rewrite (ev_window _ _ _ (window_prints printed w F (fun c I => printed_legal c (L c I)) k i)).
  - intros w s k i F [OK L]. destruct (select_prints printed w s k F (fun c I => printed_legal c (L c I))) as (sh & S & E). rewrite E. unfold printed at 1. cbn [fst snd]. now rewrite (ev_select _ _ _ (shows_select _ _ S i)).
Qed.
