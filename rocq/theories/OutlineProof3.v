(** Printing a select gives its outline (Outline.v); no code of /repo. *)
From Verif Require Import Base TokenCodes LexModel Ast Heap Actions ParseModel Grammar Sem Part Expr ExprProof Stmt Legal Own Print PrintCong Outline OutlineProof OutlineProof2.
From Coq Require Import String ZifyBool ZifyNat ZifyN. Import ListNotations.
Local Open Scope nat_scope.

Scheme query_mut := Induction for query Sort Prop with pquery_mut := Induction for pquery Sort Prop with operand_mut := Induction for operand_ Sort Prop.
Combined Scheme query_mind from query_mut, pquery_mut, operand_mut.
Lemma update_fst f x fs : map fst (update f x fs) = map fst fs.
Proof. induction fs as [|[g y] fs IH]; [reflexivity|]. cbn [update]. destruct (fld_beq f g) eqn:B; cbn [map fst]; [apply fld_beq_eq in B; now subst|now rewrite IH]. Qed.
(** ** Objects of a class with all their members *)
Definition of_class (c : cls) (v : val) : Prop := exists fs, v = VObj 0 c fs /\ map fst fs = map fst (Sem.blank c).
Lemma of_new c l : of_class c (obj c l).
Proof. exists (upds l (Sem.blank c)). split; [reflexivity|]. generalize (Sem.blank c) as fs. induction l as [|[f x] l IH]; intro fs; [reflexivity|]. cbn [upds]. rewrite IH. apply update_fst. Qed.
Lemma of_with c f x v : of_class c v -> of_class c (with_ [(f, x)] v).
Proof. intros (fs & -> & E). exists (update f x fs). split; [reflexivity|]. rewrite <- E. apply update_fst. Qed.
Lemma mem_set c f g x v : of_class c v -> In g (map fst (Sem.blank c)) -> mem f (with_ [(g, x)] v) = if fld_beq g f then Some x else mem f v.
Proof.
  intros (fs & -> & E) I. rewrite mem_with. destruct (fld_beq g f); [|reflexivity]. cbn [mem]. rewrite <- E in I. clear E. induction fs as [|[h y] fs IH]; [destruct I|]. cbn [lookup]. destruct (fld_beq g h) eqn:B; [reflexivity|].
  destruct I as [<-|I]; [|apply IH, I]. cbn [fst] in B. now rewrite fld_beq_refl in B.
Qed.
Lemma with_three f x g y h z v : with_ [(f, x); (g, y); (h, z)] v = with_ [(h, z)] (with_ [(g, y)] (with_ [(f, x)] v)).
Proof. destruct v; reflexivity. Qed.
Lemma fget_mem f v x : mem f v = Some x -> fget f v = x.
Proof. destruct v; try discriminate; cbn [mem fget]; now intros ->. Qed.

(** ** The pieces of a select *)
Definition p_fields n v i := on F_selectList v (fun v => l <-o items_of v ; each (fun x => print_expr n x (i + 2)) l).
Definition p_sources n v i := Print.if_some F_fromTable v (fun x => cat [txt "Sources:" (i + 1); print_ref n x (i + 2)]).
Definition p_conds n v i := Print.if_some F_whereClause v (fun x => cat [txt "Search Conditions:" (i + 1); print_expr n x (i + 2)]).
Definition p_grouping n v i := Print.if_some F_groupBy v (fun g => cat [txt "GroupBy:" (i + 1); on F_columns g (fun v => l <-o items_of v ; each (fun x => print_expr n x (i + 2)) l);
                                          Print.if_some F_having g (fun x => cat [txt "Having:" (i + 1); print_expr n x (i + 2)])]).
Definition p_head n v i := cat [txt "Fields:" (i + 1); p_fields n v i; p_sources n v i; p_conds n v i; p_grouping n v i].
Definition p_lockings v i := Print.if_some F_lockings v (fun v => l <-o items_of v ; cat [txt "Lock Info:" (i + 1); each (fun x => print_locking x i) l]).
Definition p_set n s i :=
  n0 <-o obind (mem F_setType s) enum_of ;
  cat [match n0 with 1 => txt "Intersect:" (i + 1) | 0 => txt "Union:" (i + 1) | 2 => txt "Except:" (i + 1) | _ => Some [] end%N;
       on F_nestedSelectStatement s (fun x => print_select n x (i + 2));
       Print.if_some F_resultOrder s (fun x => cat [txt "SetResultOrderBy:" (i + 1); print_order n x (i + 2)]);
       Print.if_some F_resultLimit s (fun d =>
         cat [Print.if_some F_limit d (fun x => cat [txt "SetResultLimit:" (i + 1); print_expr n x (i + 2)]);
              Print.if_some F_offset d (fun x => cat [txt "SetResultOffset:" (i + 1); print_expr n x (i + 2)])])].
Definition p_sets n v i := Print.if_some F_setOperations v (fun v => l <-o items_of v ; each (fun s => p_set n s i) l).
Definition p_ordering n v i := Print.if_some F_order v (fun x => cat [txt "OrderBy:" (i + 1); print_order n x (i + 2)]).
Definition p_limits n v i := cat [Print.if_some F_limit v (fun d => Print.if_some F_limit d (fun x => cat [txt "Limit:" (i + 1); print_expr n x (i + 2)]));
       Print.if_some F_limit v (fun d => Print.if_some F_offset d (fun x => cat [txt "Offset:" (i + 1); print_expr n x (i + 2)]))].
Lemma cat_app a b : cat (a ++ b) = cat [cat a; cat b].
Proof.
  induction a as [|x a IH]; cbn [app cat]; [destruct (cat b); [|reflexivity]; cbn [obind]; now rewrite app_nil_r|]. rewrite IH. destruct x; [|reflexivity]. cbn [obind cat]. destruct (cat a); [|reflexivity]. cbn [obind]. destruct (cat b); [|reflexivity]. cbn [obind]. now rewrite !app_nil_r, app_assoc.
Qed.
Lemma cat_one x : cat [x] = x. Proof. destruct x; [|reflexivity]. cbn [cat obind]. now rewrite app_nil_r. Qed.
Lemma select_pieces n v i : print_select (S n) v i = cat [txt "SelectStatement" i; p_head n v i; p_lockings v i; p_sets n v i; cat [p_ordering n v i; p_limits n v i]].
Proof.
  change (print_select (S n) v i) with (cat ([txt "SelectStatement" i] ++ ([txt "Fields:" (i + 1); p_fields n v i; p_sources n v i; p_conds n v i; p_grouping n v i] ++ ([p_lockings v i] ++ ([p_sets n v i] ++ ([p_ordering n v i] ++
    [Print.if_some F_limit v (fun d => Print.if_some F_limit d (fun x => cat [txt "Limit:" (i + 1); print_expr n x (i + 2)])); Print.if_some F_limit v (fun d => Print.if_some F_offset d (fun x => cat [txt "Offset:" (i + 1); print_expr n x (i + 2)]))])))))).  
  change [txt "SelectStatement" i; p_head n v i; p_lockings v i; p_sets n v i; cat [p_ordering n v i; p_limits n v i]] with ([txt "SelectStatement" i] ++ ([p_head n v i] ++ ([p_lockings v i] ++ ([p_sets n v i] ++ [cat ([p_ordering n v i] ++ [p_limits n v i])])))).
  rewrite !cat_app, !cat_one. reflexivity.
Qed.

Lemma head_same n v w i : (forall f, In f [F_selectList; F_fromTable; F_whereClause; F_groupBy] -> mem f w = mem f v) -> p_head n w i = p_head n v i.
Proof. intro H. unfold p_head, p_fields, p_sources, p_conds, p_grouping, on, Print.if_some. now rewrite !H by (cbn; tauto). Qed.
Lemma tail_same n v w i : mem F_order w = mem F_order v -> mem F_limit w = mem F_limit v -> cat [p_ordering n w i; p_limits n w i] = cat [p_ordering n v i; p_limits n v i].
Proof. intros A B. unfold p_ordering, p_limits, Print.if_some. now rewrite A, B. Qed.

Section Sub.
Variable sub : kind * part -> nat -> nat -> list line.
Local Notation prints_part := (prints_part sub).
Local Notation prints_ex := (prints_ex sub).
Local Notation all_print l := (forall c, In c l -> prints_part c).

(** [v] is a select statement printed as [s]. *)
Definition shows (v : val) (s : shown_select) : Prop :=
  of_class CSelectStatement v /\ mem F_type_ v = Some kStmtSelect /\ (forall i, ev (fun n => p_head n v i) (s_head s i)) /\ mem F_lockings v = Some (q_obj (p_locks (s_locks s)) 0) /\
  (exists l, mem F_setOperations v = Some match l with [] => VNull | _ => vec l end /\ Forall2 (fun o f => forall i, ev (fun n => p_set n o i) (f i)) l (s_sets s)) /\
  (forall i, ev (fun n => cat [p_ordering n v i; p_limits n v i]) (s_tail s i)).
Lemma lock_shown x k i : print_locking (q_obj (p_lock x) k) i = Some (lock_lines x i).
Proof.
  unfold p_lock. destruct (k_tables x) as [|t ts] eqn:T.
  - unfold lock_lines. rewrite T. destruct (k_mode x), (k_policy x); reflexivity.
  - args. set (v := obj _ _). match eval unfold v in v with obj _ [(_, ?a); (_, ?b); (_, ?c)] => assert (M0 : mem F_rowLockMode v = Some a) by reflexivity; assert (M1 : mem F_tables v = Some b) by reflexivity; assert (M2 : mem F_rowLockWaitPolicy v = Some c) by reflexivity end. clearbody v.
    unfold print_locking. unfold Print.if_some. rewrite M0, M1, M2, idents. cbn [obind present vec items_of]. rewrite strs_shown. unfold lock_lines. rewrite T.
    destruct (k_mode x), (k_policy x); cbn; rewrite ?app_nil_r; reflexivity.
Qed.
Lemma lock_params x : q_params (p_lock x) = 0.
Proof. unfold p_lock. destruct (k_tables x); cbn [seq_ seqp q_params]; rewrite !total_cons, ?idents_params; destruct (k_mode x), (k_policy x); reflexivity. Qed.
Lemma lockings_print l k v i : mem F_lockings v = Some (q_obj (p_locks l) k) -> ev (fun n => p_lockings v i) (headed (i + 1) "Lock Info:" l (flat_map (fun l => lock_lines l i) l)).
Proof.
  intro M. eapply (ev_if _ _ _ (fun n v => l <-o items_of v ; cat [txt "Lock Info:" (i + 1); each (fun x => print_locking x i) l])); [exact M|]. destruct l as [|x l]; [left; auto|right]. split; [reflexivity|].
  unfold p_locks, prow. cbn [q_obj vec items_of obind headed]. apply ev_head, ev_one. rewrite values_map. generalize (x :: l) as l'. clear. intro l. exists 0. intros n _. revert k. induction l as [|x l IH]; intro k; [reflexivity|].
  cbn [numbered_list each flat_map]. rewrite lock_shown, IH. reflexivity.
Qed.
Lemma shows_select v s : shows v s -> forall i, ev (fun n => print_select n v i) (select_shown s i).
Proof.
  intros (_ & _ & H & L & (l & S & SS) & T) i. apply ev_S. eapply ev_ext; [intro n; apply select_pieces|]. unfold select_shown. apply ev_head.
  apply (ev_cat (fun n => p_head n v i) (fun n => [_; _; _])); [apply H|]. apply (ev_cat (fun n => _) (fun n => [_; _])); [eapply lockings_print; exact L|].
  apply (ev_cat (fun n => _) (fun n => [_])); [|apply ev_one, T].
  eapply (ev_if _ _ _ (fun n v => l <-o items_of v ; each (fun s => p_set n s i) l)); [exact S|]. destruct l as [|x l]; [inversion SS; left; auto|right]. split; [reflexivity|].
  cbn [vec items_of obind]. rewrite flat_map_concat_map. apply (ev_all (fun n s => p_set n s i)). clear -SS. induction SS; cbn [map]; constructor; auto.
Qed.
(** Changing members. *)
Lemma shows_with f x v s : ~ In f [F_type_; F_selectList; F_fromTable; F_whereClause; F_groupBy; F_order; F_limit; F_lockings; F_setOperations] -> In f (map fst (Sem.blank CSelectStatement)) -> shows v s -> shows (with_ [(f, x)] v) s.
Proof.
  intros NI IN (C & TY & H & L & (l & S & SS) & T). assert (E : forall g, In g [F_type_; F_selectList; F_fromTable; F_whereClause; F_groupBy; F_order; F_limit; F_lockings; F_setOperations] -> mem g (with_ [(f, x)] v) = mem g v).
  { intros g I. rewrite (mem_set CSelectStatement) by assumption. destruct (fld_beq f g) eqn:B; [|reflexivity]. apply fld_beq_eq in B. congruence. }
  split; [now apply of_with|]. split; [rewrite E by (cbn; tauto); exact TY|]. split; [intro i; eapply ev_ext; [intro n; apply head_same; intros g I; apply E; cbn in I |- *; tauto|apply H]|].
  split; [rewrite E by (cbn; tauto); exact L|]. split; [exists l; rewrite E by (cbn; tauto); auto|]. intro i. eapply ev_ext; [intro n; apply tail_same; apply E; cbn; tauto|apply T].
Qed.

(** ** The clauses *)
Lemma from_total l : q_params (p_from l) = from_params l.
Proof. destruct l as [|r [|r' l]]; [reflexivity| |]; cbn [p_from seq_ seqp q_params]; rewrite !total_cons; cbn [kw token_part q_params]; change (total []) with 0. { unfold from_params. cbn [map list_sum fold_right]. lia. } unfold from_params. rewrite (total_map _ (fun r => q_params (p_tref r))) by reflexivity. lia. Qed.
Lemma where_total w : q_params (p_where w) = match w with Some e => xparams e | None => 0 end.
Proof. destruct w; [|reflexivity]. cbn [p_where seq_ seqp q_params]. rewrite !total_cons. cbn [kw token_part q_params pex]. change (total []) with 0. lia. Qed.
Lemma top_total t : q_params (p_top t) = 0. Proof. destruct t; reflexivity. Qed.
Lemma distinct_total t : q_params (p_distinct t) = 0. Proof. destruct t; reflexivity. Qed.
Lemma top_prints t v i : mem F_order v = Some VNull -> mem F_limit v = Some (q_obj (p_top t) 0) -> ev (fun n => cat [p_ordering n v i; p_limits n v i]) (top_lines t i).
Proof. intros O L. exists 1. intros [|n] Ln; [lia|]. unfold p_ordering, p_limits, Print.if_some. rewrite O, L. destruct t; reflexivity. Qed.
Lemma opt_part_in {A} (f : A -> list (kind * part)) (w : option A) e c : w = Some e -> In c (f e) -> In c (of_opt f w).
Proof. now intros ->. Qed.
Lemma clause_prints c k : clause_ok c = true -> all_print (clause_parts c) -> shows (q_obj (p_clause c) k) (mkShown (clause_lines sub c k) [] [] (top_lines (c_top c))) /\ mem F_order (q_obj (p_clause c) k) = Some VNull.
Proof.
  intros F PP. unfold clause_ok in F. apply andb_prop in F as [F FH]. apply andb_prop in F as [F FG]. apply andb_prop in F as [F FW]. apply andb_prop in F as [F FF]. apply andb_prop in F as [_ FI].
  unfold clause_parts in PP. unfold p_clause. args. rewrite top_total, distinct_total, items_params, from_total, where_total. args.
  set (k1 := k + list_sum (map iparams (c_items c))). set (k2 := k1 + from_params (c_from c)). set (k3 := k2 + _).
  match goal with |- shows ?x _ /\ _ => set (v := x) end.
  assert (OC : of_class CSelectStatement v) by apply of_new.
  match eval unfold v in v with obj _ [(_, ?a); _; (_, ?x1); (_, ?x2); (_, ?x3); (_, ?x4)] =>
    assert (M0 : mem F_limit v = Some a) by reflexivity; assert (M1 : mem F_selectList v = Some x1) by reflexivity; assert (M2 : mem F_fromTable v = Some x2) by reflexivity; assert (M3 : mem F_whereClause v = Some x3) by reflexivity; assert (M4 : mem F_groupBy v = Some x4) by reflexivity end.
  assert (M5 : mem F_order v = Some VNull) by reflexivity. assert (M6 : mem F_lockings v = Some VNull) by reflexivity. assert (M7 : mem F_setOperations v = Some VNull) by reflexivity. assert (M8 : mem F_type_ v = Some kStmtSelect) by reflexivity. clearbody v.
  split; [|exact M5]. unfold shows. cbn [s_head s_locks s_sets s_tail]. split; [exact OC|]. split; [exact M8|]. split; [|split; [exact M6|split; [exists []; auto|intro i; apply top_prints; [exact M5|rewrite M0; destruct (c_top c); reflexivity]]]].
  intro i. unfold p_head, clause_lines. fold k1. fold k2. fold k3. apply ev_head.
  apply (ev_cat (fun n => _) (fun n => [_; _; _])). { eapply (ev_on _ _ _ (fun n v => l <-o items_of v ; each (fun x => print_expr n x (i + 2)) l)); [exact M1|]. cbn [plist q_obj vec items_of obind]. apply items_print; [exact FI|]. intros; apply PP; rewrite !in_app_iff; auto. }
  apply (ev_cat (fun n => _) (fun n => [_; _])). { eapply (ev_if _ _ _ (fun n x => cat [txt "Sources:" (i + 1); print_ref n x (i + 2)])); [exact M2|].
    assert (PF : forall r, In r (c_from c) -> tref_ok r = true /\ all_print (tref_parts r)). { intros r I. split; [now apply (proj1 (forallb_forall tref_ok _) FF)|]. intros; apply PP; rewrite !in_app_iff. right. left. apply in_flat_map. eauto. }
    destruct (c_from c) as [|r [|r' l]]; [left; auto|right|right]; (split; [try reflexivity|]).
    - unfold p_from. args. destruct r; reflexivity.
    - unfold p_from. args. cbn [headed]. apply ev_head, ev_one. cbn [lines_of]. rewrite app_nil_r. destruct (PF r (or_introl eq_refl)). now apply tref_prints.
    - unfold p_from. args. cbn [headed]. apply ev_head, ev_one. revert PF. generalize (r :: r' :: l). intros l0 PF. apply ev_S. cbn [print_ref]. set (w := obj _ _).
      match eval unfold w in w with obj _ [_; (_, ?x)] => assert (N1 : mem F_list w = Some x) by reflexivity end. assert (N0 : mem F_type w = Some kTableCrossProduct) by reflexivity. assert (N2 : mem F_alias w = Some VNull) by reflexivity. clearbody w.
      rewrite N0. cbn [obind enum_of kTableCrossProduct]. match goal with |- ev _ ?x => rewrite <- (app_nil_r x) end. apply (ev_cat (fun n => _) (fun n => [_])).
      + eapply (ev_on _ _ _ (fun n v => l <-o items_of v ; each (fun x => print_ref n x (i + 2)) l)); [exact N1|]. cbn [vec items_of obind]. rewrite values_map. apply (ev_numbered (fun n x => print_ref n x (i + 2))). intros x I k'. destruct (PF x I). now apply tref_prints.
      + apply ev_one. eapply (ev_if _ _ _ (fun n x => print_alias x (i + 2))); [exact N2|]. auto. }
  apply (ev_cat (fun n => _) (fun n => [_])). { eapply (ev_if _ _ _ (fun n x => cat [txt "Search Conditions:" (i + 1); print_expr n x (i + 2)])); [exact M3|]. destruct (c_where c) as [e|]; [right|left; auto]. cbn [Legal.if_some] in FW. unfold p_where. args. cbn [pex q_obj].
    split; [now apply node_present, xobj_node|]. apply ev_head, ev_one. apply ex_prints; [exact FW|]. intros; apply PP; rewrite !in_app_iff. right. right. left. assumption. }
  apply ev_one. eapply (ev_if _ _ _ (fun n g => cat [txt "GroupBy:" (i + 1); on F_columns g (fun v => l <-o items_of v ; each (fun x => print_expr n x (i + 2)) l); Print.if_some F_having g (fun x => cat [txt "Having:" (i + 1); print_expr n x (i + 2)])])); [exact M4|].
  destruct (c_group c) as [|x l] eqn:G; [left; auto|right]. split; [reflexivity|]. cbn [headed]. apply ev_head. unfold p_group. args. rewrite items_params.
  set (w := obj _ _). match eval unfold w in w with obj _ [(_, ?a); (_, ?b)] => assert (N0 : mem F_columns w = Some a) by reflexivity; assert (N1 : mem F_having w = Some b) by reflexivity end. clearbody w.
  apply (ev_cat (fun n => _) (fun n => [_])).
  - eapply (ev_on _ _ _ (fun n v => l <-o items_of v ; each (fun x => print_expr n x (i + 2)) l)); [exact N0|]. cbn [plist q_obj vec items_of obind]. apply (items_print sub (x :: l)); [exact FG|]. intros; apply PP; rewrite !in_app_iff; auto.
  - apply ev_one. eapply (ev_if _ _ _ (fun n x => cat [txt "Having:" (i + 1); print_expr n x (i + 2)])); [exact N1|]. destruct (c_having c) as [e|]; [right|left; auto]. cbn [Legal.if_some] in FH. unfold p_having. args. cbn [pex q_obj].
    split; [now apply node_present, xobj_node|]. apply ev_head, ev_one. apply ex_prints; [exact FH|]. intros; apply PP; rewrite !in_app_iff. right. right. right. right. assumption.
Qed.

(** ** LIMIT, OFFSET *)
Definition opt_val (o : option (ex * nat)) : val := match o with Some (e, k) => xobj e k | None => VNull end.
Lemma limit_obj l k : q_obj (p_limit l) k = match l with LNone => VNull | _ => limit (opt_val (fst (lim_parts_ l k))) (opt_val (snd (lim_parts_ l k))) end.
Proof. destruct l; unfold p_limit; args; reflexivity. Qed.
Lemma lim_total l : q_params (p_limit l) = list_sum (map xparams (lim_exs l)).
Proof. destruct l; cbn [p_limit seq_ seqp q_params]; rewrite ?total_cons; reflexivity. Qed.
Lemma opt_prints o v f s i : (forall e k, o = Some (e, k) -> fits e = true /\ all_print (xparts e)) -> mem f v = Some (opt_val o) -> ev (fun n => Print.if_some f v (fun x => cat [txt s (i + 1); print_expr n x (i + 2)])) (opt_lines sub i s o).
Proof.
  intros H M. eapply (ev_if _ _ _ (fun n x => cat [txt s (i + 1); print_expr n x (i + 2)])); [exact M|]. destruct o as [[e k]|]; [right|left; auto]. destruct (H e k eq_refl) as [F P]. cbn [opt_val opt_lines].
  split; [now apply node_present, xobj_node|]. apply ev_head, ev_one. now apply ex_prints.
Qed.
Lemma lim_good l k : lim_ok l = true -> all_print (lim_parts l) -> (forall e k', fst (lim_parts_ l k) = Some (e, k') -> fits e = true /\ all_print (xparts e)) /\ (forall e k', snd (lim_parts_ l k) = Some (e, k') -> fits e = true /\ all_print (xparts e)).
Proof.
  intros F PP. assert (G : forall e, In e (lim_exs l) -> fits e = true /\ all_print (xparts e)) by (intros e I; split; [now apply (proj1 (forallb_forall fits _) F)|intros c Ic; apply PP; apply in_flat_map; eauto]).
  split; intros e k' E; apply G; destruct l; cbn [lim_parts_ fst snd lim_exs] in *; try discriminate E; injection E as <- _; cbn; auto.
Qed.
Lemma limits_print t l k v i : lim_ok l = true -> all_print (lim_parts l) -> mem F_limit v = Some match l with LNone => q_obj (p_top t) 0 | _ => q_obj (p_limit l) k end -> ev (fun n => p_limits n v i) (limit_lines sub t l k i).
Proof.
  intros F PP M. destruct (lim_good l k F PP) as [G1 G2]. assert (D : l = LNone \/ mem F_limit v = Some (limit (opt_val (fst (lim_parts_ l k))) (opt_val (snd (lim_parts_ l k)))) /\ limit_lines sub t l k i = opt_lines sub i "Limit:" (fst (lim_parts_ l k)) ++ opt_lines sub i "Offset:" (snd (lim_parts_ l k)))
    by (rewrite limit_obj in M; destruct l; auto).
  destruct D as [->|[M' ->]].
  - exists 1. intros [|n] L; [lia|]. unfold p_limits, Print.if_some. rewrite M. destruct t; reflexivity.
  - clear M. set (d := limit _ _) in M'. assert (D1 : mem F_limit d = Some (opt_val (fst (lim_parts_ l k)))) by reflexivity. assert (D2 : mem F_offset d = Some (opt_val (snd (lim_parts_ l k)))) by reflexivity. assert (PD : present d = Some true) by reflexivity. clearbody d.
    apply (ev_cat (fun n => _) (fun n => [_])); [|apply ev_one].
    + eapply (ev_if _ _ _ (fun n d => Print.if_some F_limit d _)); [exact M'|]. right. split; [exact PD|]. now apply opt_prints.
    + eapply (ev_if _ _ _ (fun n d => Print.if_some F_offset d _)); [exact M'|]. right. split; [exact PD|]. now apply opt_prints.
Qed.
(** ** Set operations *)
Lemma set_prints o all nested sn ord l k k0 : shows nested sn -> tail_ok ord l = true -> all_print (tail_parts ord l) -> forall i,
  ev (fun n => p_set n (with_ [(F_nestedSelectStatement, nested); (F_resultOrder, q_obj (p_order ord) k); (F_resultLimit, q_obj (p_limit l) (k + list_sum (map oparams ord)))] (q_obj (p_setop o all) k0)) i) (set_lines sub o sn ord l k i).
Proof.
  intros SN F PP i. apply andb_prop in F as [F1 F2]. unfold tail_parts in PP. set (v := with_ _ _).
  assert (M0 : mem F_setType v = Some match o with Union => kSetUnion | Intersect => kSetIntersect | Except => kSetExcept end) by (destruct o; reflexivity).
  assert (M1 : mem F_nestedSelectStatement v = Some nested) by reflexivity. assert (M2 : mem F_resultOrder v = Some (q_obj (p_order ord) k)) by reflexivity. assert (M3 : mem F_resultLimit v = Some (q_obj (p_limit l) (k + list_sum (map oparams ord)))) by reflexivity. clearbody v.
  unfold p_set, set_lines. rewrite M0. 
  assert (G : ev (fun n => cat [on F_nestedSelectStatement v (fun x => print_select n x (i + 2)); Print.if_some F_resultOrder v (fun x => cat [txt "SetResultOrderBy:" (i + 1); print_order n x (i + 2)]);
       Print.if_some F_resultLimit v (fun d => cat [Print.if_some F_limit d (fun x => cat [txt "SetResultLimit:" (i + 1); print_expr n x (i + 2)]); Print.if_some F_offset d (fun x => cat [txt "SetResultOffset:" (i + 1); print_expr n x (i + 2)])])])
     (select_shown sn (i + 2) ++ order_lines sub "SetResultOrderBy:" ord k i ++ opt_lines sub i "SetResultLimit:" (fst (lim_parts_ l (k + list_sum (map oparams ord)))) ++ opt_lines sub i "SetResultOffset:" (snd (lim_parts_ l (k + list_sum (map oparams ord)))))).
  { apply (ev_cat (fun n => _) (fun n => [_; _])). { eapply (ev_on _ _ _ (fun n x => print_select n x (i + 2))); [exact M1|]. now apply shows_select. }
    apply (ev_cat (fun n => _) (fun n => [_])). { eapply order_prints; [exact F1| |exact M2]. intros; apply PP, in_or_app; auto. }
    apply ev_one. destruct (lim_good l (k + list_sum (map oparams ord)) F2) as [G1 G2]; [intros; apply PP, in_or_app; auto|].
    eapply (ev_if _ _ _ (fun n d => cat [Print.if_some F_limit d _; Print.if_some F_offset d _])); [exact M3|]. rewrite limit_obj. destruct l; [left; auto|right..]; (split; [reflexivity|]); (apply (ev_cat (fun n => _) (fun n => [_])); [|apply ev_one]; (apply opt_prints; [assumption|reflexivity])). }
  destruct o; (apply (ev_cat (fun n => txt _ _) (fun n => [_; _; _]) [_]); [apply ev_txt|exact G]).
Qed.
Lemma shows_set v s op f : shows v s -> (forall i, ev (fun n => p_set n op i) (f i)) -> shows (with_ [(F_setOperations, snoc (fget F_setOperations v) op)] v) (add_set s f).
Proof.
  intros (C & TY & H & L & (l & S & SS) & T) P. assert (E : forall g, fld_beq F_setOperations g = false -> mem g (with_ [(F_setOperations, snoc (fget F_setOperations v) op)] v) = mem g v) by (intros g B; rewrite (mem_set CSelectStatement) by (auto; cbn; tauto); now rewrite B).
  split; [now apply of_with|]. split; [rewrite E by reflexivity; exact TY|]. cbn [add_set s_head s_locks s_sets s_tail].
  split; [intro i; eapply ev_ext; [intro n; apply head_same; intros g I; apply E; cbn in I; decompose [or] I; subst; try reflexivity; contradiction|apply H]|]. split; [rewrite E by reflexivity; exact L|].
  split; [|intro i; eapply ev_ext; [intro n; apply tail_same; apply E; reflexivity|apply T]].
  exists (l ++ [op]). split; [|apply Forall2_app; auto]. rewrite (mem_set CSelectStatement) by (auto; cbn; tauto). cbn [fld_beq]. rewrite fld_beq_refl. rewrite (fget_mem _ _ _ S). destruct l; reflexivity.
Qed.
Lemma shows_locks v s l k : shows v s -> s_locks s = [] -> shows (with_ [(F_lockings, q_obj (p_locks l) k)] v) (mkShown (s_head s) l (s_sets s) (s_tail s)).
Proof.
  intros (C & TY & H & L & (l0 & S & SS) & T) N. assert (E : forall g, fld_beq F_lockings g = false -> mem g (with_ [(F_lockings, q_obj (p_locks l) k)] v) = mem g v) by (intros g B; rewrite (mem_set CSelectStatement) by (auto; cbn; tauto); now rewrite B).
  split; [now apply of_with|]. split; [rewrite E by reflexivity; exact TY|]. cbn [s_head s_locks s_sets s_tail].
  split; [intro i; eapply ev_ext; [intro n; apply head_same; intros g I; apply E; cbn in I; decompose [or] I; subst; try reflexivity; contradiction|apply H]|].
  split; [rewrite (mem_set CSelectStatement) by (auto; cbn; tauto); rewrite fld_beq_refl; f_equal|]. { destruct l as [|x l]; [reflexivity|]. unfold p_locks, prow. cbn [q_obj]. f_equal. rewrite !values_map. generalize (x :: l). intro l1. clear. generalize 0 as m. revert k. induction l1 as [|x l1 IH]; intros k m; [reflexivity|]. cbn [numbered_list]. f_equal; [|apply IH].
    unfold p_lock. destruct (k_tables x); args; rewrite ?idents; destruct (k_mode x), (k_policy x); reflexivity. }
  split; [exists l0; rewrite E by reflexivity; auto|]. intro i. eapply ev_ext; [intro n; apply tail_same; apply E; reflexivity|apply T].
Qed.
Lemma in_three {A} (x : A) a b c l : In x l -> l = a ++ b ++ c -> In x a \/ In x b \/ In x c.
Proof. intros I ->. rewrite !in_app_iff in I. exact I. Qed.
Lemma setop_shown v s op0 nested sn o all ord l k k0 : shows v s -> shows nested sn -> tail_ok ord l = true -> all_print (tail_parts ord l) -> op0 = q_obj (p_setop o all) k0 ->
  shows (set_op v op0 nested (q_obj (p_order ord) k) (q_obj (p_limit l) (k + list_sum (map oparams ord)))) (add_set s (set_lines sub o sn ord l k)).
Proof. intros V N T P ->. unfold set_op. apply shows_set; [exact V|]. now apply set_prints. Qed.
Lemma query_prints :
  (forall q, query_ok q = true -> all_print (query_parts q) -> forall k, shows (q_obj (p_query q) k) (query_shown sub q k)) /\
  (forall p, pquery_ok p = true -> all_print (pquery_parts p) -> forall k, shows (q_obj (p_pquery p) k) (pquery_shown sub p k)) /\
  (forall r, operand_ok r = true -> all_print (operand_parts r) -> forall k, shows (q_obj (p_operand r) k) (operand_shown sub r k)).
Proof.
  apply query_mind.
  - intros c o l ks F PP k. cbn [query_ok query_parts] in F, PP. apply andb_prop in F as [F1 F2]. apply andb_prop in F2 as [F2 F3]. unfold tail_parts in PP. destruct (clause_prints c k F1) as [C O]; [intros; apply PP, in_or_app; auto|].
    cbn [p_query query_shown]. args. rewrite order_params. rewrite with_three. set (v := q_obj (p_clause c) k) in *. set (k1 := k + q_params (p_clause c)).
    assert (CL : of_class CSelectStatement v) by apply C.
    set (lm := match l with LNone => _ | _ => _ end).
    assert (LM : lm = match l with LNone => q_obj (p_top (c_top c)) 0 | _ => q_obj (p_limit l) (k1 + list_sum (map oparams o)) end).
    { subst lm. destruct l; try reflexivity. apply fget_mem. subst v. unfold p_clause. args. destruct (c_top c); reflexivity. }
    clearbody lm. set (w := with_ [(F_limit, lm)] (with_ [(F_order, q_obj (p_order o) k1)] v)).
    apply (shows_locks w (mkShown (clause_lines sub c k) [] [] (fun d => order_lines sub "OrderBy:" o k1 d ++ limit_lines sub (c_top c) l (k1 + list_sum (map oparams o)) d))); [|reflexivity].
    assert (E : forall g, mem g w = if fld_beq F_limit g then Some lm else if fld_beq F_order g then Some (q_obj (p_order o) k1) else mem g v).
    { intro g. unfold w. rewrite (mem_set CSelectStatement) by (try apply of_with; auto; cbn; tauto). destruct (fld_beq F_limit g); [reflexivity|]. apply (mem_set CSelectStatement); auto; cbn; tauto. }
    assert (OW : of_class CSelectStatement w) by (now do 2 apply of_with). clearbody w. destruct C as (_ & TY & H & L & (l0 & S & SS) & _). cbn [s_head s_locks s_sets s_tail] in *.
    split; [exact OW|]. split; [now rewrite E|]. cbn [s_head s_locks s_sets s_tail].
    split; [intro i; eapply ev_ext; [intro n; apply head_same; intros g I; rewrite E; cbn in I; decompose [or] I; subst; try reflexivity; contradiction|apply H]|]. split; [now rewrite E|]. split; [exists l0; now rewrite E|].
    intro i. apply (ev_cat (fun n => _) (fun n => [_])); [|apply ev_one].
    + eapply order_prints; [exact F2| |rewrite E; reflexivity]. intros; apply PP; rewrite !in_app_iff; auto.
    + apply limits_print; [exact F3| |rewrite E, LM; reflexivity]. intros; apply PP; rewrite !in_app_iff; auto.
  - intros c s all r IH o l ks F PP k. cbn [query_ok query_parts] in F, PP. apply andb_prop in F as [F F3]. apply andb_prop in F as [F1 F2]. destruct (clause_prints c k F1) as [C O]; [intros; apply PP, in_or_app; auto|].
    cbn [p_query query_shown]. args. rewrite order_params, setop_params. args. set (k1 := k + q_params (p_clause c)).
    apply (shows_locks _ (mkShown (clause_lines sub c k) [] [set_lines sub s (operand_shown sub r k1) o l (k1 + q_params (p_operand r))] (top_lines (c_top c)))); [|reflexivity].
    apply (setop_shown _ (mkShown (clause_lines sub c k) [] [] (top_lines (c_top c))) _ _ _ s all o l _ k1); auto; try (intros; apply PP; rewrite !in_app_iff; auto; fail). apply IH; auto. intros; apply PP; rewrite !in_app_iff; auto.
  - intros q IH F PP k. cbn [p_pquery pquery_shown]. args. now apply IH.
  - intros q IH F PP k. cbn [p_pquery pquery_shown]. args. now apply IH.
  - intros p IH F PP k. cbn [p_operand operand_shown]. now apply IH.
  - intros c F PP k. cbn [p_operand operand_shown]. now apply clause_prints.
  - intros c s all r IH F PP k. cbn [operand_ok operand_parts] in F, PP. apply andb_prop in F as [F1 F2]. destruct (clause_prints c k F1) as [C O]; [intros; apply PP, in_or_app; auto|].
    cbn [p_operand operand_shown]. args. rewrite setop_params. args. set (k1 := k + q_params (p_clause c)).
    apply (setop_shown _ (mkShown (clause_lines sub c k) [] [] (top_lines (c_top c))) _ _ _ s all [] LNone _ k1); auto; try (intros ? []). apply IH; auto. intros; apply PP; rewrite !in_app_iff; auto.
Qed.
Lemma select_prints w s k : select_ok w s = true -> all_print (select_parts w s) -> exists sh, shows (q_obj (p_select w s) k) sh /\ forall i, select_lines sub w s k i = select_shown sh i.
Proof.
  intros F PP. unfold select_ok in F. apply andb_prop in F as [_ F]. unfold select_parts in PP. destruct query_prints as (Q & P & O). unfold p_select, select_lines. destruct s as [q|p|p o all r ord l]; args; (eexists; split; [apply shows_with; [cbn; intuition discriminate|cbn; tauto|]|reflexivity]).
  - apply Q; auto. intros; apply PP, in_or_app; auto.
  - apply P; auto. intros; apply PP, in_or_app; auto.
  - apply andb_prop in F as [F F3]. apply andb_prop in F as [F1 F2]. rewrite setop_params, order_params. args. eapply setop_shown; [apply P|apply O| | |reflexivity]; auto; intros; apply PP; rewrite !in_app_iff; auto.
Qed.
End Sub.
