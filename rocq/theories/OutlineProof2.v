(** Printing the object of a clause or statement gives its outline (Outline.v), continued; no code of /repo. *)
From Verif Require Import Base TokenCodes LexModel Ast Heap Actions ParseModel Grammar Sem Part Expr ExprProof Stmt Legal Own Print PrintCong Outline OutlineProof.
From Coq Require Import String ZifyBool ZifyNat ZifyN. Import ListNotations.
Local Open Scope nat_scope.

(** ** Parameters *)
Ltac args := cbn [seq_ seqp q_obj q_params values numbered_list kw pid pnum pstring token_part nothing arg nth Nat.pred paren]; rewrite ?Nat.add_0_r.
Lemma total_cons p ps : total (p :: ps) = q_params p + total ps. Proof. reflexivity. Qed.
Lemma values_map {A} (f : A -> part) l k : values (map f l) k = numbered_list (fun x => q_obj (f x)) (fun x => q_params (f x)) l k.
Proof. unfold values. revert k. induction l as [|x l IH]; intro k; [reflexivity|]. cbn [map numbered_list]. now rewrite IH. Qed.
Lemma total_map {A} (f : A -> part) (p : A -> nat) l : (forall x, q_params (f x) = p x) -> total (map f l) = list_sum (map p l).
Proof. intro H. unfold total. rewrite map_map. f_equal. now apply map_ext. Qed.
Lemma lines_ext {A} (f g : A -> nat -> list line) (p q : A -> nat) l : (forall x k, In x l -> f x k = g x k) -> (forall x, p x = q x) -> forall k, lines_of f p l k = lines_of g q l k.
Proof. intros H E. induction l as [|x l IH]; intro k; [reflexivity|]. cbn [lines_of]. rewrite H by now left. rewrite E, IH; [reflexivity|]. intros; apply H; now right. Qed.
Lemma idents l k : q_obj (ident_list l) k = vec (map str l).
Proof. unfold ident_list, plist. cbn [q_obj]. f_equal. rewrite values_map. revert k. induction l as [|x l IH]; intro k; [reflexivity|]. cbn [numbered_list map]. now rewrite IH. Qed.
Lemma idents_params l : q_params (ident_list l) = 0.
Proof. unfold ident_list, plist. cbn [q_params]. rewrite (total_map _ (fun _ => 0)); [|reflexivity]. induction l; auto. Qed.
Lemma alias_params a : q_params (p_opt_alias a) = 0. Proof. destruct a as [[[] n]|]; reflexivity. Qed.
Lemma item_params i : q_params (p_item i) = iparams i.
Proof. unfold p_item, seq_, seqp. cbn [q_params]. rewrite !total_cons, alias_params. unfold iparams. cbn [pex q_params]. change (total []) with 0. lia. Qed.
Lemma dir_params d : q_params (p_dir d) = 0. Proof. destruct d as [[]|]; reflexivity. Qed.
Lemma nulls_params n : q_params (p_nulls n) = 0. Proof. destruct n as [[? ?]|]; reflexivity. Qed.
Lemma ord_params o : q_params (p_ord o) = oparams o.
Proof. unfold p_ord, seq_, seqp. cbn [q_params]. rewrite !total_cons, dir_params, nulls_params. unfold oparams. cbn [pex q_params]. change (total []) with 0. lia. Qed.
Lemma items_params l : q_params (plist (map p_item l)) = list_sum (map iparams l).
Proof. cbn [plist q_params]. apply total_map, item_params. Qed.
Lemma order_params o : q_params (p_order o) = list_sum (map oparams o).
Proof. destruct o as [|x o]; [reflexivity|]. cbn [p_order seq_ seqp q_params]. rewrite !total_cons. cbn [kw token_part q_params plist]. change (total []) with 0. rewrite (total_map _ oparams) by apply ord_params. lia. Qed.
Lemma partition_params l : q_params match l with [] => nothing VNull | x :: l' => seq_ (arg 3) [kw TOK_PARTITION; kw TOK_BY; plist (map p_item (x :: l'))] end = list_sum (map iparams l).
Proof. destruct l as [|x l]; [reflexivity|]. cbn [seq_ seqp q_params]. rewrite !total_cons, items_params. cbn [kw token_part q_params]. change (total []) with 0. lia. Qed.
Lemma bound_params b : q_params (p_bound b) = 0. Proof. destruct b; reflexivity. Qed.
Lemma ftype_params t : q_params (p_ftype t) = 0. Proof. destruct t; reflexivity. Qed.
Lemma jtype_params t : q_params (p_jtype t) = 0. Proof. destruct t; reflexivity. Qed.
Lemma tname_params t : q_params (p_tname t) = 0. Proof. destruct t as [[]]; reflexivity. Qed.
Lemma talias_params a : q_params (p_talias a) = 0.
Proof. destruct a as [[[[] n]|n cols]|]; try reflexivity. cbn [p_talias seq_ seqp q_params]. rewrite !total_cons, idents_params. reflexivity. Qed.
Lemma setop_params s all : q_params (p_setop s all) = 0. Proof. destruct all; reflexivity. Qed.

(** Reading members of an object one has just made. *)
Lemma ev_on f v x (b : nat -> val -> prints) l : mem f v = Some x -> ev (fun n => b n x) l -> ev (fun n => on f v (b n)) l.
Proof. intros M (n0 & E). exists n0. intros n L. unfold on. rewrite M. cbn [obind]. auto. Qed.
Lemma ev_if f v x (b : nat -> val -> prints) l : mem f v = Some x -> x = VNull /\ l = [] \/ present x = Some true /\ ev (fun n => b n x) l -> ev (fun n => Print.if_some f v (b n)) l.
Proof. intros M [[-> ->]|[P (n0 & E)]]; [exists 0|exists n0]; intros n L; unfold Print.if_some; rewrite M; cbn [obind present]; [reflexivity|]. rewrite P. cbn [obind]. auto. Qed.
Lemma ev_txt s i : ev (fun _ => txt s i) [word i s].
Proof. now exists 0. Qed.
Lemma ev_str s i : ev (fun _ => inprint_str (str s) i) [said_ i s].
Proof. now exists 0. Qed.
Lemma ev_head s i (g : nat -> list prints) l : ev (fun n => cat (g n)) l -> ev (fun n => cat (txt s i :: g n)) (word i s :: l).
Proof. intro H. apply (ev_cat (fun _ => txt s i) g [word i s]); [apply ev_txt|exact H]. Qed.
Lemma ev_items (b : nat -> val -> prints) l ls : ev (fun n => each (b n) l) ls -> ev (fun n => l0 <-o items_of (vec l) ; each (b n) l0) ls.
Proof. exact (fun H => H). Qed.

Section Sub.
Variable sub : kind * part -> nat -> nat -> list line.
Local Notation prints_part := (prints_part sub).
Local Notation prints_ex := (prints_ex sub).
Local Notation all_print l := (forall c, In c l -> prints_part c).

Lemma item_prints x : item_ok x = true -> all_print (item_parts x) -> forall k i, ev (fun n => print_expr n (q_obj (p_item x) k) i) (item_lines sub x k i) /\ present (q_obj (p_item x) k) = Some true.
Proof.
  intros F PP k i. unfold p_item, item_lines. args. cbn [pex q_obj]. pose proof (ex_prints sub _ F PP k i) as H. pose proof (xobj_node _ F k) as N. destruct (i_alias x) as [[as_ a]|].
  - replace (fget F_name _) with (str a) by (destruct as_; reflexivity). split; [apply ev_alias; assumption|].
    destruct (node_present _ N). destruct (xobj (i_ex x) k); try discriminate (node_present _ N); reflexivity.
  - rewrite app_nil_r. split; [exact H|now apply node_present].
Qed.
Lemma items_print l : forallb item_ok l = true -> all_print (flat_map item_parts l) -> forall k i, ev (fun n => each (fun y => print_expr n y i) (values (map p_item l) k)) (lines_of (fun x k => item_lines sub x k i) iparams l k).
Proof.
  intros F PP k i. rewrite values_map. rewrite (lines_ext _ (fun x k => item_lines sub x k i) iparams (fun x => q_params (p_item x))) by (auto; intro; symmetry; apply item_params).
  apply (ev_numbered (fun n y => print_expr n y i)). intros x I k'. apply item_prints; [now apply (proj1 (forallb_forall item_ok l) F)|]. intros c Ic. apply PP, in_flat_map. eauto.
Qed.
Lemma orders_print l : forallb ord_ok l = true -> all_print (flat_map ord_parts l) -> forall k i, ev (fun n => print_order n (vec (values (map p_ord l) k)) i) (lines_of (fun x k => ord_lines sub x k i) oparams l k).
Proof.
  intros F PP k i. rewrite values_map. rewrite (lines_ext _ (fun x k => ord_lines sub x k i) oparams (fun x => q_params (p_ord x))) by (auto; intro; symmetry; apply ord_params).
  apply ev_S. unfold vec. cbn [print_order present obind negb items_of].
  apply (ev_numbered (fun n o => cat [on F_expr o (fun x => print_expr n x i); n0 <-o obind (mem F_type o) enum_of; if (n0 =? 0)%N then txt "ascending" i else txt "descending" i])).
  intros x I k'. unfold p_ord, ord_lines. args. cbn [pex q_obj].
  apply (ev_cat (fun n => on F_expr _ (fun x => print_expr n x i)) (fun n => [_])).
  - eapply (ev_on _ _ _ (fun n x => print_expr n x i)); [reflexivity|]. apply ex_prints; [now apply (proj1 (forallb_forall ord_ok l) F)|]. intros c Ic. apply PP, in_flat_map. eauto.
  - exists 0. intros n _. destruct (o_dir x) as [[]|]; reflexivity.
Qed.
Lemma order_prints s l : forallb ord_ok l = true -> all_print (flat_map ord_parts l) -> forall k i f v, mem f v = Some (q_obj (p_order l) k) ->
  ev (fun n => Print.if_some f v (fun x => cat [txt s (i + 1); print_order n x (i + 2)])) (order_lines sub s l k i).
Proof.
  intros F PP k i f v M. eapply (ev_if f v _ (fun n x => cat [txt s (i + 1); print_order n x (i + 2)])); [exact M|]. unfold order_lines, headed. destruct l as [|x l]; [left; auto|right].
  unfold p_order. split; [reflexivity|]. args. apply ev_head. apply ev_one. exact (orders_print (x :: l) F PP k (i + 2)).
Qed.
Lemma frame_shown f k i : (fun v => n <-o obind (mem F_type v) enum_of ; s <-o obind (mem F_start v) show_bound ; e <-o obind (mem F_end v) show_bound ;
  Some [Out i ([PTxt (match n with 1 => la "ROWS" | 0 => la "RANGE" | 2 => la "GROUPS" | _ => [] end%N); PTxt (la " BETWEEN ")] ++ s ++ [PTxt (la " AND ")] ++ e)]) (q_obj (p_frame f) k) = Some [Out i (frame_line f)].
Proof. destruct f as [[[] [[] | [] []]]|]; reflexivity. Qed.
Lemma window_prints w : window_ok w = true -> all_print (window_parts w) -> forall k i, ev (fun n => print_window n (q_obj (p_window w) k) i) (window_lines sub w k i).
Proof.
  intros F PP k i. apply andb_prop in F as [F1 F2]. unfold window_parts in PP. unfold p_window. set (pt := match w_part w with [] => _ | _ :: _ => _ end). pose proof (partition_params (w_part w) : q_params pt = _) as QP. args. rewrite QP. unfold window_lines. apply ev_S. cbn [print_window].
  set (v := obj CWindowDescription _).
  match eval unfold v in v with obj _ [(_, ?a); (_, ?b); (_, ?c)] => assert (M1 : mem F_partitionList v = Some a) by reflexivity; assert (M2 : mem F_orderList v = Some b) by reflexivity; assert (M3 : mem F_frameDescription v = Some c) by reflexivity end. clearbody v.
  apply ev_head. 
  apply (ev_cat (fun n => Print.if_some F_partitionList v _) (fun n => [_; _])).
  { eapply (ev_if _ _ _ (fun n v => l <-o items_of v ; cat [txt "PARTITION BY" (i + 1); each (fun x => print_expr n x (i + 2)) l])); [exact M1|]. subst pt. destruct (w_part w) as [|x l]; [left; auto|right]. split; [reflexivity|].
    args. unfold vec. cbn [items_of obind plist q_obj]. apply ev_head, ev_one. apply (items_print (x :: l)); [exact F1|]. intros; apply PP, in_or_app; auto. }
  apply (ev_cat (fun n => Print.if_some F_orderList v _) (fun n => [_])).
  { eapply order_prints in M2; [|exact F2|intros; apply PP, in_or_app; auto]. apply M2. }
  apply ev_one. eapply (ev_on _ _ _ (fun n f => _)); [exact M3|]. exists 0. intros n _. apply frame_shown.
Qed.

(** ** FROM *)
Lemma ev_nested f (g : nat -> list prints) l l' : ev (fun n => cat (f n)) l -> ev (fun n => cat (g n)) l' -> ev (fun n => cat (cat (f n) :: g n)) (l ++ l').
Proof. intros A B. now apply (ev_cat (fun n => cat (f n))). Qed.
Lemma strs_shown l i : each (fun x => inprint_str x i) (map str l) = Some (map (said_ i) l).
Proof. apply ev_strs. Qed.
Lemma talias_prints a k i v : match a with Some (TColumns _ []) => False | _ => True end -> mem F_alias v = Some (q_obj (p_talias a) k) -> ev (fun n => Print.if_some F_alias v (fun x => print_alias x i)) (talias_lines a i).
Proof.
  intros OK M. exists 0. intros n _. unfold Print.if_some. rewrite M. destruct a as [[[[] a]|a cols]|]; try reflexivity. destruct cols as [|c cols]; [contradiction|]. cbn [obind p_talias]. args. unfold print_alias, obj, on, Print.if_some, vec.
  set (v' := VObj _ _ _). assert (M1 : mem F_name v' = Some (str a)) by reflexivity. assert (M2 : mem F_columns v' = Some (q_obj (ident_list (c :: cols)) k)) by reflexivity.
  assert (P : present v' = Some true) by reflexivity. clearbody v'. rewrite P, M1, M2, idents. cbn [obind present vec items_of]. rewrite strs_shown. cbn [cat obind]. rewrite app_nil_r. reflexivity.
Qed.
Lemma join_prints j l r c cols i ll lr lc : ev (fun n => print_ref n l (i + 2)) ll -> ev (fun n => print_ref n r (i + 2)) lr -> ev (fun n => print_expr n c (i + 2)) lc ->
  ev (fun n => print_ref n (join j l r c cols) i) (word i "Join Table" :: word (i + 1) "Left" :: ll ++ word (i + 1) "Right" :: lr ++ word (i + 1) "Join Condition" :: lc).
Proof.
  intros L R C. apply ev_S. cbn [print_ref]. unfold join. set (jd := obj CJoinDefinition _). assert (J1 : mem F_left jd = Some l) by reflexivity. assert (J2 : mem F_right jd = Some r) by reflexivity. assert (J3 : mem F_condition jd = Some c) by reflexivity. clearbody jd.
  set (v := obj _ _). assert (M0 : mem F_type v = Some kTableJoin) by reflexivity. assert (M1 : mem F_join v = Some jd) by reflexivity. assert (M2 : mem F_alias v = Some VNull) by reflexivity. clearbody v.
  rewrite M0. cbn [obind enum_of kTableJoin]. match goal with |- ev _ ?x => rewrite <- (app_nil_r x) end. apply (ev_cat (fun n => _) (fun n => [_])).
  - eapply (ev_on _ _ _ (fun n j => cat _)); [exact M1|]. apply ev_head. apply ev_head. apply (ev_cat (fun n => _) (fun n => [_; _; _; _])); [eapply (ev_on _ _ _ (fun n x => print_ref n x (i + 2))); [exact J1|exact L]|].
    apply ev_head. apply (ev_cat (fun n => _) (fun n => [_; _])); [eapply (ev_on _ _ _ (fun n x => print_ref n x (i + 2))); [exact J2|exact R]|]. apply ev_head. apply ev_one. eapply (ev_on _ _ _ (fun n x => print_expr n x (i + 2))); [exact J3|exact C].
  - apply ev_one. eapply (ev_if _ _ _ (fun n x => print_alias x i)); [exact M2|]. left. auto.
Qed.
Lemma tref_prints r : tref_ok r = true -> all_print (tref_parts r) -> forall k i, ev (fun n => print_ref n (q_obj (p_tref r) k) i) (tref_lines sub r k i).
Proof.
  assert (AL : forall a, match a with Some (TColumns _ cols) => match cols with [] => false | _ :: _ => true end | _ => true end = true -> match a with Some (TColumns _ []) => False | _ => True end) by (intros [[?|? []]|]; auto; discriminate).
  induction r as [t a|p a|l IHl r IHr|l IHl t r IHr e|l IHl t r IHr cols]; intros F PP k i; cbn [tref_ok tref_parts p_tref tref_lines] in *.
  - args. rewrite tname_params. args. apply ev_S. cbn [print_ref]. set (v := obj _ _). 
    assert (M0 : mem F_type v = Some kTableName) by reflexivity. assert (M1 : mem F_schema v = Some (schema_of t)) by reflexivity. assert (M2 : mem F_name v = Some (name_of t)) by reflexivity. assert (M3 : mem F_alias v = Some (q_obj (p_talias a) k)) by reflexivity. clearbody v.
    rewrite M0. cbn [obind enum_of kTableName].
    rewrite app_comm_cons. apply (ev_nested (fun n => [_; _]) (fun n => [_])).
    + apply (ev_cat (fun n => _) (fun n => [_]) [_]); [eapply (ev_on _ _ _ (fun n x => inprint_str x i)); [exact M2|apply ev_str]|]. apply ev_one.
      eapply (ev_if _ _ _ (fun n x => cat [txt "Schema" (i + 1); inprint_str x (i + 2)])); [exact M1|]. unfold schema_of. destruct (t_schema t) as [s|]; [right|left; auto]. split; [reflexivity|]. now exists 0.
    + apply ev_one. apply (talias_prints a k); [|exact M3]. apply AL. now destruct a as [[?|? []]|].
  - args. apply ev_S. cbn [print_ref]. set (v := obj _ _).
    match eval unfold v in v with obj _ [_; (_, ?x); (_, ?y)] => assert (M0 : mem F_type v = Some kTableSelect) by reflexivity; assert (M1 : mem F_select v = Some x) by reflexivity; assert (M2 : mem F_alias v = Some y) by reflexivity end. clearbody v.
    rewrite M0. cbn [obind enum_of kTableSelect]. apply (ev_cat (fun n => _) (fun n => [_])).
    + eapply (ev_on _ _ _ (fun n x => print_select n x i)); [exact M1|]. apply (PP (KTable, p)). now left.
    + apply ev_one. eapply talias_prints; [|exact M2]. apply AL. now destruct a as [[?|? []]|].
  - apply andb_prop in F as [F _]. apply andb_prop in F as [F1 F2]. args. apply join_prints; [apply IHl|apply IHr|apply ev_null]; auto; intros; apply PP, in_or_app; auto.
  - apply andb_prop in F as [F F3]. apply andb_prop in F as [F1 F2]. args. rewrite jtype_params. args. apply join_prints; [apply IHl|apply IHr|]; auto; try (intros; apply PP; rewrite !in_app_iff; auto; fail).
    cbn [pex q_obj]. apply ex_prints; auto; intros; apply PP; rewrite !in_app_iff; auto.
  - apply andb_prop in F as [F F3]. apply andb_prop in F as [F1 F2]. args. rewrite jtype_params. args. apply join_prints; [apply IHl|apply IHr|apply ev_null]; auto; intros; apply PP, in_or_app; auto.
Qed.
End Sub.
