(** Property C47, second part: the answers of the functions of the nodes in terms of the text that was parsed.  Vocabulary: see PropStmt.v. *)
From Verif Require Import Base Ast Heap ParseModel Api Sem Own ParseProof ParamProof PropParse Script PropStmt Print PrintCong Nodes Access PropAccess.
From Verif Require Import LexScan LexWords LexTok Part Expr ExprProof Stmt Legal OutlineProof.
From Coq Require Import ZifyBool ZifyNat ZifyN.
Local Open Scope nat_scope.

(** ** What is written *)
(** Literals, and parameters. *)
Fixpoint literal_syntax (e : ex) : bool :=
  match e with
  | XInt _ | XFlt _ | XStr _ | XBool _ | XNull | XDate _ | XInterval _ _ _ | XIntervalText _ _ | XParam => true
  | XParen e => literal_syntax e
  | _ => false
  end.
(** The table of a column or star. *)
Fixpoint table_written (e : ex) : option bytes := match e with XQCol t _ | XQStar t => Some t | XParen e => table_written e | _ => None end.
(** The name of a column or function; the text of a string or date. *)
Fixpoint own_name (e : ex) : option bytes :=
  match e with XCol n | XQCol _ n => Some n | XFun _ n _ _ _ => Some n | XStr s | XDate s => Some s | XParen e => own_name e | _ => None end.
Definition either {A} (a b : option A) : option A := match a with Some _ => a | None => b end.
Definition is_some {A} (a : option A) : bool := match a with Some _ => true | None => false end.
(** A returned char*: null, or this text. *)
Definition names (v : val) (t : option bytes) : Prop := match t with None => v = VNull | Some s => exists a, v = VStr a s end.
Definition returns_name (m : M val) (e : env) (t : option bytes) : Prop := exists n, m e = ROk n e /\ names n t.
Definition item_answers (e : env) (i : item) (v : val) : Prop :=
  let alias := option_map a_name (i_alias i) in
  expr_isLiteral v e = ROk (literal_syntax (i_ex i)) e /\
  expr_hasAlias v e = ROk (is_some alias) e /\
  expr_hasTable v e = ROk (is_some (table_written (i_ex i))) e /\
  returns_name (expr_getName v) e (either alias (own_name (i_ex i))).
Definition talias_name (a : option talias) : option bytes := match a with None => None | Some (TAlias a) => Some (a_name a) | Some (TColumns n _) => Some n end.
Fixpoint table_answers (e : env) (r : tref) (v : val) : Prop :=
  let is schema name := table_hasSchema v e = ROk (is_some schema) e /\ returns_name (table_getName v) e name in
  let both l r := is (None : option bytes) None /\ table_answers e l (fget F_left (fget F_join v)) /\ table_answers e r (fget F_right (fget F_join v)) in
  match r with
  | RTable t a => is (t_schema t) (either (talias_name a) (Some (t_name t)))
  | RSelect _ a => is None (talias_name a)
  | RNatural l r => both l r
  | ROn l _ r _ => both l r
  | RUsing l _ r _ => both l r
  end.
Definition from_answers (e : env) (l : list tref) (v : val) : Prop :=
  match l with
  | [] => v = VNull
  | [r] => table_answers e r v
  | _ => table_hasSchema v e = ROk false e /\ returns_name (table_getName v) e None /\ exists a vs, fget F_list v = VVec a vs /\ Forall2 (table_answers e) l vs
  end.

(** ** Reading a node whose contents are known up to addresses *)
Definition live_in (e : env) (v : val) : Prop := forall u a, inside u v -> block_of u = Some a -> memN a (e_live e) = true.
Lemma live_member e a c fs f x : live_in e (VObj a c fs) -> lookup f fs = Some x -> live_in e x.
Proof. intros L E u b I. apply L. eapply in_member; [exact (lookup_In _ _ _ E)|exact I]. Qed.
Lemma erase_lookup f c fs : f <> F_ival -> f <> F_stringLength -> lookup f (erase_obj c (erase_fields fs)) = option_map erase (lookup f fs).
Proof.
  intros N1 N2. unfold erase_obj. assert (D : lookup f (erase_fields fs) = option_map erase (lookup f fs)) by (rewrite lookup_erase; destruct (lookup f fs); cbn [option_map]; [now rewrite erase_scalar_id|reflexivity]).
  destruct (param_index c (erase_fields fs)); [|exact D]. rewrite Poke.lookup_update. destruct (fld_beq F_ival f) eqn:E; [apply fld_beq_eq in E; congruence|exact D].
Qed.
Lemma erased_object v b c gs : erase v = VObj b c gs -> exists a fs, v = VObj a c fs /\ gs = erase_obj c (erase_fields fs).
Proof. destruct v; try discriminate. rewrite erase_obj_def. intro E. injection E as <- <- <-. eauto. Qed.
Lemma read_node e v b c gs f y : live_in e v -> erase v = VObj b c gs -> f <> F_ival -> f <> F_stringLength -> lookup f gs = Some y -> y <> VUninit ->
  exists x, getf f v e = ROk x e /\ erase x = y /\ fget f v = x /\ live_in e x.
Proof.
  intros L E N1 N2 G U. destruct (erased_object _ _ _ _ E) as (a & fs & -> & ->). rewrite (erase_lookup f c fs N1 N2) in G. destruct (lookup f fs) as [x|] eqn:X; [|discriminate G]. injection G as G.
  exists x. split; [|split; [exact G|split; [cbn [fget]; now rewrite X|eapply live_member; eassumption]]].
  unfold getf, bind, check. rewrite (L _ a (in_self _) eq_refl). unfold read_field. rewrite X. destruct x; try reflexivity. now destruct U.
Qed.
Lemma erase_null x : erase x = VNull -> x = VNull. Proof. destruct x; try discriminate. auto. Qed.
Lemma erase_str x s : erase x = str s -> exists a, x = VStr a s. Proof. destruct x; try discriminate. intro E. injection E as ->. eauto. Qed.
Definition ostr (o : option bytes) : val := match o with Some s => str s | None => VNull end.
Lemma erase_ostr x o : erase x = ostr o -> names x o.
Proof. destruct o; [apply erase_str|apply erase_null]. Qed.
Lemma names_given x o e : names x o -> given x e = ROk (is_some o) e.
Proof. destruct o; [intros (a & ->)|intros ->]; reflexivity. Qed.
Lemma ostr_set o : ostr o <> VUninit. Proof. destruct o; discriminate. Qed.

(** ** Expressions *)
Definition shows (gs : list (fld * val)) (lit : bool) (al na ta : option bytes) : Prop :=
  (exists t, lookup F_type gs = Some (VEnum EExprType t) /\ existsb (N.eqb t) [0; 1; 2; 3; 4; 5; 7]%N = lit) /\
  lookup F_alias gs = Some (ostr al) /\ lookup F_name gs = Some (ostr na) /\ lookup F_table gs = Some (ostr ta).
Lemma xobj_shows e : fits e = true -> forall k, exists gs, xobj e k = VObj 0 CExpr gs /\ shows gs (literal_syntax e) None (own_name e) (table_written e).
Proof.
  induction e using ex_ind2; intros F k; try destruct n; try destruct o;
  try (match goal with |- exists gs, xobj (XIntervalText _ _) _ = _ /\ _ => cbn [fits xobj] in *; destruct (interval_text s u) as [[z f]|]; [|discriminate F]; eexists; split; [reflexivity|]; repeat split; eexists; split; reflexivity end);
  try (match goal with |- exists gs, xobj (XParen _) _ = _ /\ _ => cbn [fits xobj literal_syntax own_name table_written] in *; apply IHe; exact F end);
  (eexists; split; [reflexivity|]; repeat split; eexists; split; reflexivity).
Qed.
Lemma item_shows i k : item_ok i = true -> exists gs, q_obj (p_item i) k = VObj 0 CExpr gs /\ shows gs (literal_syntax (i_ex i)) (option_map a_name (i_alias i)) (own_name (i_ex i)) (table_written (i_ex i)).
Proof.
  intro F. unfold item_ok in F. destruct (xobj_shows _ F k) as (gs & E & (t & T1 & T2) & A & N & B). unfold p_item. cbn [seq_ seqp q_obj values numbered_list arg nth Nat.pred pex q_obj]. rewrite E.
  destruct (i_alias i) as [[as_ a]|]; [|exists gs; repeat split; eauto].
  replace (fget F_name _) with (str a) by (destruct as_; reflexivity). exists (update F_alias (str a) gs). split; [reflexivity|]. unfold shows. rewrite !Poke.lookup_update. cbn [fld_beq fld_code N.eqb Pos.eqb]. rewrite A. repeat split; eauto.
Qed.
Lemma orelse_run x y e b c : x e = ROk b e -> y e = ROk c e -> orelse x y e = ROk (b || c) e.
Proof. intros X Y. unfold orelse, bind. rewrite X. destruct b; [reflexivity|exact Y]. Qed.
Lemma expr_answers e v i k : live_in e v -> item_ok i = true -> erase v = q_obj (p_item i) k -> item_answers e i v.
Proof.
  intros L F E. destruct (item_shows i k F) as (gs & G & (t & T1 & T2) & A & N & B). rewrite G in E. set (alias := option_map a_name (i_alias i)) in *.
  destruct (read_node e v 0 CExpr gs F_type _ L E ltac:(discriminate) ltac:(discriminate) T1 ltac:(discriminate)) as (x & GT & ET & _). apply erase_is_enum in ET. subst x.
  destruct (read_node e v 0 CExpr gs F_alias _ L E ltac:(discriminate) ltac:(discriminate) A (ostr_set _)) as (xa & GA & EA & _). apply erase_ostr in EA.
  destruct (read_node e v 0 CExpr gs F_name _ L E ltac:(discriminate) ltac:(discriminate) N (ostr_set _)) as (xn & GN & EN & _). apply erase_ostr in EN.
  destruct (read_node e v 0 CExpr gs F_table _ L E ltac:(discriminate) ltac:(discriminate) B (ostr_set _)) as (xt & GB & EB & _). apply erase_ostr in EB.
  unfold item_answers. cbn zeta. fold alias. split; [|split; [|split]].
  - rewrite <- T2. assert (Q : forall n, expr_isType (VEnum EExprType n) v e = ROk (N.eqb n t) e) by (intro n; unfold expr_isType, bind; rewrite GT; reflexivity).
    unfold expr_isLiteral. etransitivity; [exact (orelse_run _ _ _ _ _ (Q 2%N) (orelse_run _ _ _ _ _ (Q 0%N) (orelse_run _ _ _ _ _ (Q 1%N) (orelse_run _ _ _ _ _ (Q 7%N) (orelse_run _ _ _ _ _ (Q 3%N) (orelse_run _ _ _ _ _ (Q 4%N) (Q 5%N)))))))|].
    cbn [existsb]. rewrite !(N.eqb_sym t). f_equal. destruct (N.eqb 0 t), (N.eqb 1 t), (N.eqb 2 t), (N.eqb 3 t), (N.eqb 4 t), (N.eqb 5 t), (N.eqb 7 t); reflexivity.
  - unfold expr_hasAlias, bind. rewrite GA. now apply names_given.
  - unfold expr_hasTable, bind. rewrite GB. now apply names_given.
  - unfold returns_name, expr_getName, bind. rewrite GA, (names_given _ _ e EA). destruct alias as [s|]; cbn [is_some either]; [exists xa|exists xn]; split; auto.
Qed.
Lemma items_answer e : forall l k vs, (forall v, In v vs -> live_in e v) -> forallb item_ok l = true -> map erase vs = values (map p_item l) k -> Forall2 (item_answers e) l vs.
Proof.
  induction l as [|i l IH]; intros k [|v vs] L F E; try discriminate E; [constructor|]. cbn [map values numbered_list] in E. injection E as E1 E2. cbn [forallb] in F. apply andb_true_iff in F as [F1 F2].
  constructor; [eapply expr_answers; [apply L; now left|exact F1|exact E1]|]. eapply IH; [intros; apply L; now right|exact F2|exact E2].
Qed.

(** ** Tables *)
Definition ref_shows (gs : list (fld * val)) (sc na : option bytes) (al : option bytes) : Prop :=
  lookup F_schema gs = Some (ostr sc) /\ lookup F_name gs = Some (ostr na) /\
  match al with None => lookup F_alias gs = Some VNull | Some n => exists hs, lookup F_alias gs = Some (VObj 0 CAlias hs) /\ lookup F_name hs = Some (str n) end.
Lemma ref_answers e v gs sc na al : live_in e v -> erase v = VObj 0 CTableRef gs -> ref_shows gs sc na al -> table_hasSchema v e = ROk (is_some sc) e /\ returns_name (table_getName v) e (either al na).
Proof.
  intros L E (A & B & C). destruct (read_node e v 0 CTableRef gs F_schema _ L E ltac:(discriminate) ltac:(discriminate) A (ostr_set _)) as (xs & GS & ES & _). apply erase_ostr in ES.
  destruct (read_node e v 0 CTableRef gs F_name _ L E ltac:(discriminate) ltac:(discriminate) B (ostr_set _)) as (xn & GN & EN & _). apply erase_ostr in EN.
  split; [unfold table_hasSchema, bind; rewrite GS; now apply names_given|]. unfold returns_name, table_getName, bind. destruct al as [n|].
  - destruct C as (hs & C & D). destruct (read_node e v 0 CTableRef gs F_alias _ L E ltac:(discriminate) ltac:(discriminate) C ltac:(discriminate)) as (xa & GA & EA & _ & LA). rewrite GA.
    destruct (erased_object _ _ _ _ EA) as (a & fs & Q & _). replace (given xa e) with (@ROk bool true e) by (now rewrite Q).
    destruct (read_node e xa 0 CAlias hs F_name _ LA EA ltac:(discriminate) ltac:(discriminate) D ltac:(discriminate)) as (x & GX & EX & _). rewrite GX. exists x. split; [reflexivity|]. exact (erase_str _ _ EX).
  - destruct (read_node e v 0 CTableRef gs F_alias _ L E ltac:(discriminate) ltac:(discriminate) C ltac:(discriminate)) as (xa & GA & EA & _). apply erase_null in EA. subst xa. rewrite GA. cbn [given is_null bind ret negb either]. exists xn. auto.
Qed.
Lemma talias_shows a k : match talias_name a with None => q_obj (p_talias a) k = VNull | Some n => exists hs, q_obj (p_talias a) k = VObj 0 CAlias hs /\ lookup F_name hs = Some (str n) end.
Proof. destruct a as [[[[] n]|n cols]|]; cbn [talias_name p_talias p_alias a_as a_name]; try reflexivity; (eexists; split; reflexivity). Qed.
Lemma join_answers e v t l r c n : live_in e v -> erase v = join t l r c n -> l <> VUninit -> r <> VUninit ->
  (table_hasSchema v e = ROk false e /\ returns_name (table_getName v) e None) /\
  (live_in e (fget F_left (fget F_join v)) /\ erase (fget F_left (fget F_join v)) = l) /\ (live_in e (fget F_right (fget F_join v)) /\ erase (fget F_right (fget F_join v)) = r).
Proof.
  intros L E NL NR. split; [refine (ref_answers e v _ None None None L E _); repeat split|].
  destruct (read_node e v _ _ _ F_join _ L E ltac:(discriminate) ltac:(discriminate) eq_refl ltac:(discriminate)) as (x & _ & EX & FX & LX). rewrite FX.
  destruct (read_node e x _ _ _ F_left _ LX EX ltac:(discriminate) ltac:(discriminate) eq_refl NL) as (y & _ & EY & FY & LY). rewrite FY.
  destruct (read_node e x _ _ _ F_right _ LX EX ltac:(discriminate) ltac:(discriminate) eq_refl NR) as (z & _ & EZ & FZ & LZ). rewrite FZ. auto.
Qed.
Lemma tref_object r k : exists gs, q_obj (p_tref r) k = VObj 0 CTableRef gs.
Proof. destruct r; eexists; reflexivity. Qed.
Lemma tref_set r k : q_obj (p_tref r) k <> VUninit.
Proof. destruct (tref_object r k) as (gs & ->). discriminate. Qed.
Lemma tref_answers e : forall r v k, live_in e v -> erase v = q_obj (p_tref r) k -> table_answers e r v.
Proof.
  induction r as [t a|p a|l IHl r IHr|l IHl t r IHr x|l IHl t r IHr cols]; intros v k L E.
  - cbn [table_answers]. refine (ref_answers e v _ (t_schema t) (Some (t_name t)) (talias_name a) L E _). repeat split. pose proof (talias_shows a (k + q_params (p_tname t))) as T. destruct (talias_name a) as [n|]; [|change (Some (q_obj (p_talias a) (k + q_params (p_tname t))) = Some VNull); now rewrite T].
    destruct T as (hs & T1 & T2). exists hs. split; [change (Some (q_obj (p_talias a) (k + q_params (p_tname t))) = Some (VObj 0 CAlias hs)); now rewrite T1|exact T2].
  - cbn [table_answers]. assert (Q : forall b : option bytes, b = either b None) by (now intros []). rewrite (Q (talias_name a)). refine (ref_answers e v _ None None (talias_name a) L E _). repeat split.
    pose proof (talias_shows a (k + 0 + q_params p + 0)) as T. destruct (talias_name a) as [n|]; [|change (Some (q_obj (p_talias a) (k + 0 + q_params p + 0)) = Some VNull); now rewrite T].
    destruct T as (hs & T1 & T2). exists hs. split; [change (Some (q_obj (p_talias a) (k + 0 + q_params p + 0)) = Some (VObj 0 CAlias hs)); now rewrite T1|exact T2].
  - cbn [table_answers]. destruct (join_answers e v _ _ _ _ _ L E (tref_set l _) (tref_set r _)) as (J & [JL EL] & [JR ER]). split; [exact J|]. split; [exact (IHl _ _ JL EL)|exact (IHr _ _ JR ER)].
  - cbn [table_answers]. destruct (join_answers e v _ _ _ _ _ L E (tref_set l _) (tref_set r _)) as (J & [JL EL] & [JR ER]). split; [exact J|]. split; [exact (IHl _ _ JL EL)|exact (IHr _ _ JR ER)].
  - cbn [table_answers]. destruct (join_answers e v _ _ _ _ _ L E (tref_set l _) (tref_set r _)) as (J & [JL EL] & [JR ER]). split; [exact J|]. split; [exact (IHl _ _ JL EL)|exact (IHr _ _ JR ER)].
Qed.
Lemma trefs_answer e : forall l k vs, (forall v, In v vs -> live_in e v) -> map erase vs = values (map p_tref l) k -> Forall2 (table_answers e) l vs.
Proof.
  induction l as [|i l IH]; intros k [|v vs] L E; try discriminate E; [constructor|]. cbn [map values numbered_list] in E. injection E as E1 E2.
  constructor; [eapply tref_answers; [apply L; now left|exact E1]|]. eapply IH; [intros; apply L; now right|exact E2].
Qed.
Lemma erased_vec v l : erase v = vec l -> exists a vs, v = VVec a vs /\ map erase vs = l.
Proof. destruct v; try discriminate. cbn [erase]. intro E. injection E as <-. eauto. Qed.
Lemma live_elements e a vs : live_in e (VVec a vs) -> forall v, In v vs -> live_in e v.
Proof. intros L v I u b U. apply L. eapply in_element; eassumption. Qed.
Lemma from_answer e l v k : live_in e v -> erase v = q_obj (p_from l) k -> from_answers e l v.
Proof.
  intros L E. destruct l as [|r [|r2 l]].
  - now apply erase_null.
  - exact (tref_answers e r v _ L E).
  - cbn [from_answers]. remember (r :: r2 :: l) as rs eqn:R. assert (Q : q_obj (p_from rs) k = obj CTableRef [(F_type, kTableCrossProduct); (F_list, vec (values (map p_tref rs) (k + 0)))]) by (now subst rs). rewrite Q in E.
    destruct (ref_answers e v _ None None None L E ltac:(repeat split)) as [A B]. split; [exact A|]. split; [exact B|].
    destruct (read_node e v _ _ _ F_list _ L E ltac:(discriminate) ltac:(discriminate) eq_refl ltac:(discriminate)) as (x & _ & EX & FX & LX). rewrite FX. destruct (erased_vec _ _ EX) as (a & vs & -> & EV). exists a, vs. split; [reflexivity|].
    eapply trefs_answer; [exact (live_elements _ _ _ LX)|exact EV].
Qed.

(** ** The theorem *)
(** Parsing any spelling of a SELECT: the answers of the functions on the elements of the select list and on the tables of the FROM clause. *)
Theorem C47_written : forall w c o l k b text, let s := SSelect w (SQuery (QSelect c o l k)) in
  stmt_legal s -> q_stack (p_stmt s) <= 196 -> spells (q_tok (p_stmt s) ++ semicolon b) text -> q_ok (p_stmt s) 0 = true -> forall buf0,
  exists e v, parse buf0 text fresh_env = PRet 0 e /\ e_valid e = true /\ e_stmts e = [v] /\
    (exists a vs, fget F_selectList v = VVec a vs /\ Forall2 (item_answers e) (c_items c) vs) /\
    from_answers e (c_from c) (fget F_fromTable v).
Proof.
  intros w c o l k b text s LG ST SP OK buf0. destruct (stmt_accepted s b text LG ST SP OK buf0) as (e & PE & V & EO & _).
  destruct (e_stmts e) as [|v [|]] eqn:ES; try discriminate EO. injection EO as EO. exists e, v. split; [exact PE|]. split; [exact V|]. split; [exact ES|].
  destruct (tokens_total text) as (ts & T & _). destruct (parse_sound T PE) as (_ & lost & H & _).
  assert (L : live_in e v).
  { intros u a U B. apply (heap_mem H). unfold owned, the_result. cbn [r_stmts r_msg]. rewrite ES. cbn [cas]. pose proof (inside_ca _ _ a U) as G. assert (1 <= ca a u); [|lia]. destruct u; try discriminate B; injection B as <-; [cbn [ca]|rewrite ca_obj|rewrite ca_vec]; rewrite ind_refl; lia. }
  destruct LG as [LG _]. assert (IO : forallb item_ok (c_items c) = true).
  { unfold s in LG. cbn [stmt_ok] in LG. unfold select_ok in LG. cbn [query_ok] in LG. unfold clause_ok in LG. rewrite !andb_true_iff in LG. tauto. }
  assert (Q : exists gs k1 k2, finished s = VObj 0 CSelectStatement gs /\ lookup F_selectList gs = Some (vec (values (map p_item (c_items c)) k1)) /\ lookup F_fromTable gs = Some (q_obj (p_from (c_from c)) k2)).
  { eexists _, _, _. split; [reflexivity|]. split; reflexivity. }
  destruct Q as (gs & k1 & k2 & Q & G1 & G2). rewrite Q in EO. split.
  - destruct (read_node e v _ _ _ F_selectList _ L EO ltac:(discriminate) ltac:(discriminate) G1 ltac:(discriminate)) as (x & _ & EX & FX & LX). rewrite FX. destruct (erased_vec _ _ EX) as (a & vs & -> & EV). exists a, vs. split; [reflexivity|].
    eapply items_answer; [exact (live_elements _ _ _ LX)|exact IO|exact EV].
  - assert (N : q_obj (p_from (c_from c)) k2 <> VUninit) by (destruct (c_from c) as [|r [|r2 rs]]; [discriminate|exact (tref_set r _)|discriminate]).
    destruct (read_node e v _ _ _ F_fromTable _ L EO ltac:(discriminate) ltac:(discriminate) G2 N) as (x & _ & EX & FX & LX). rewrite FX. exact (from_answer e _ x k2 LX EX).
Qed.
(** SELECT a AS s, t.b, 5 x, (?), f.* FROM sch.t AS u LEFT JOIN w ON i = j, z *)
Definition acc_items : list item :=
  [mkItem (c_ "a") (Some (mkAlias true (la "s"))); item_ (XQCol (la "t") (la "b")); mkItem (XInt 5) (Some (mkAlias false (la "x"))); item_ (XParen XParam); item_ (XQStar (la "f"))].
Definition acc_from : list tref := [ROn (RTable (mkTN (Some (la "sch")) (la "t")) (Some (TAlias (mkAlias true (la "u"))))) JLeft (from_ "w") (XBin BEq (c_ "i") (c_ "j")); from_ "z"].
Definition acc_stmt : stmt := SSelect [] (SQuery (QSelect (PropStmt.plain acc_items acc_from None) [] LNone [])).
Example C47_example : stmt_legal acc_stmt /\ q_stack (p_stmt acc_stmt) <= 196 /\ q_ok (p_stmt acc_stmt) 0 = true /\ forallb printable (q_tok (p_stmt acc_stmt) ++ semicolon true) = true /\
  map (fun i => (literal_syntax (i_ex i), is_some (option_map a_name (i_alias i)), is_some (table_written (i_ex i)), either (option_map a_name (i_alias i)) (own_name (i_ex i)))) acc_items =
    [(false, true, false, Some (la "s")); (false, false, true, Some (la "b")); (true, true, false, Some (la "x")); (true, false, false, None); (false, false, true, None)].
Proof.
  split; [split; [vm_compute; reflexivity|vm_compute; repeat constructor]|]. split; [vm_compute; lia|]. split; [vm_compute; reflexivity|]. split; vm_compute; reflexivity.
Qed.
