(** Every well-formed piece of a statement is said by its grammar symbol; no code of /repo. *)
From Verif Require Export PartProof Legal.
From Coq Require Import ZifyBool ZifyNat ZifyN.
Local Open Scope nat_scope.
Set Implicit Arguments.
Unset Strict Implicit.

Notation fine := (Forall part_ok).
Lemma pex_says e : fits e = true -> fine (xparts e) -> says S_expr (pex e).
Proof.
  intros F P. apply said_says with (L := 0); [|vm_compute; lia]. intros k. split; [reflexivity|]. destruct (proj1 (expr_ok F P) k) as [t Q]. exists t. eapply phrase_weaken; [exact Q|lia|lia|apply le_n].
Qed.
Lemma some_ne A (l : list A) : some l = true -> l <> []. Proof. destruct l; [discriminate|intros _; discriminate]. Qed.
Lemma map_ne A B (f : A -> B) l : l <> [] -> map f l <> []. Proof. destruct l; [contradiction|discriminate]. Qed.
Lemma Forall_map_says A (f : A -> part) X l (ok : A -> bool) (parts : A -> list (kind * part)) : (forall x, ok x = true -> fine (parts x) -> says X (f x)) -> forallb ok l = true -> fine (flat_map parts l) -> Forall (says X) (map f l).
Proof. intros H O F. apply Forall_forall. intros p I. apply in_map_iff in I as (x & <- & I). apply H; [rewrite forallb_forall in O; auto|]. exact (forall_flat F I). Qed.
Lemma Forall_map_all A (f : A -> part) X l : (forall x, says X (f x)) -> Forall (says X) (map f l).
Proof. intros H. apply Forall_forall. intros p I. apply in_map_iff in I as (x & <- & _). auto. Qed.
Ltac pl r1 r2 := eapply (@says_plist _ _ r1 r2); [reflexivity|reflexivity|vm_compute; reflexivity|vm_compute; reflexivity|intros; reflexivity|intros; reflexivity| |].
Ltac bools := repeat match goal with H : (_ && _)%bool = true |- _ => apply andb_true_iff in H as [? ?] end; repeat match goal with H : Forall _ (_ ++ _) |- _ => apply Forall_app in H as [? ?] end.

(** ** Names *)
Lemma idents_says l : l <> [] -> says S_ident_commalist (ident_list l).
Proof. intros N. unfold ident_list. pl 356%N 357%N; [now apply map_ne|]. apply Forall_map_all. apply says_id. Qed.
Lemma tname_says t : says S_table_name (p_tname t).
Proof. unfold p_tname. destruct (t_schema t); [sr 310%N|sr 309%N]. Qed.
Lemma alias_says a : says S_alias (p_alias a).
Proof. unfold p_alias. destruct (a_as a); [sr 317%N|sr 318%N]. Qed.
Lemma opt_alias_says a : says S_opt_alias (p_opt_alias a).
Proof. destruct a; cbn [p_opt_alias]; [su 319%N; apply alias_says|sn 320%N]. Qed.
Definition talias_ok (a : option talias) : bool := match a with Some (TColumns _ cols) => some cols | _ => true end.
Lemma talias_says a : talias_ok a = true -> says S_opt_table_alias (p_talias a).
Proof.
  destruct a as [[a|n cols]|]; cbn [p_talias talias_ok]; intros O.
  - su 315%N. su 313%N. apply alias_says.
  - su 315%N. pose proof (idents_says (some_ne O)). sr 314%N.
  - sn 316%N.
Qed.
Lemma columns_says l : says S_opt_column_list (p_columns l).
Proof. destruct l as [|c l]; cbn [p_columns]; [sn 118%N|]. pose proof (@idents_says (c :: l) ltac:(discriminate)). unfold paren. sr 117%N. Qed.
Lemma item_says i : item_ok i = true -> fine (item_parts i) -> says S_expr_alias (p_item i).
Proof.
  intros O F. pose proof (pex_says O F) as E. pose proof (opt_alias_says (i_alias i)) as A. unfold p_item. sr 182%N. intros k _. destruct (i_alias i) as [[[] n]|]; reflexivity.
Qed.
Lemma items_says l : some l = true -> forallb item_ok l = true -> fine (flat_map item_parts l) -> says S_expr_list (plist (map p_item l)).
Proof. intros N O F. pl 171%N 172%N; [apply map_ne, (some_ne N)|]. eapply Forall_map_says; [apply item_says|exact O|exact F]. Qed.
Lemma where_says w : if_some fits w = true -> fine (of_opt xparts w) -> says S_opt_where (p_where w).
Proof. destruct w as [e|]; cbn [p_where if_some of_opt]; intros O F; [|sn 148%N]. pose proof (pex_says O F). sr 147%N. Qed.

(** ** ORDER BY, LIMIT, locking, windows *)
Lemma dir_says d : says S_opt_order_type (p_dir d).
Proof. destruct d as [[]|]; cbn [p_dir]; [sr 158%N|sr 159%N|sn 160%N]. Qed.
Lemma nulls_says n : says S_opt_null_ordering (p_nulls n).
Proof.
  destruct n as [[a b]|]; cbn [p_nulls]; [|sn 161%N]. sr 162%N. intros k _. change (values [pid a; pid b] k) with [str a; str b]. change (asem 162 (k + total [pid a; pid b]) [str a; str b]) with (null_ordering a b). unfold null_ordering.
  destruct (casecmp a (la "nulls")); cbn [andb]; [|reflexivity]. destruct (casecmp b (la "first")); cbn [orb]; [reflexivity|]. destruct (casecmp b (la "last")); reflexivity.
Qed.
Lemma ord_says o : ord_ok o = true -> fine (ord_parts o) -> says S_order_desc (p_ord o).
Proof. intros O F. pose proof (pex_says O F). pose proof (dir_says (o_dir o)). pose proof (nulls_says (o_nulls o)). unfold p_ord. sr 157%N. Qed.
Lemma order_says l : forallb ord_ok l = true -> fine (flat_map ord_parts l) -> says S_opt_order (p_order l).
Proof.
  intros O F. unfold p_order. destruct l as [|o l]; [sn 154%N|]. assert (says S_order_list (plist (map p_ord (o :: l)))) by (pl 155%N 156%N; [discriminate|]; eapply Forall_map_says; [apply ord_says|exact O|exact F]).
  sr 153%N.
Qed.
Lemma limit_says l : lim_ok l = true -> fine (lim_parts l) -> says S_opt_limit (p_limit l).
Proof.
  unfold lim_ok, lim_parts. destruct l; cbn [lim_exs forallb flat_map p_limit]; intros O F; rewrite ?app_nil_r in F; bools.
  - sn 170%N.
  - pose proof (@pex_says e ltac:(assumption) ltac:(assumption)). sr 165%N.
  - pose proof (@pex_says e ltac:(assumption) ltac:(assumption)). sr 166%N.
  - pose proof (@pex_says l ltac:(assumption) ltac:(assumption)). pose proof (@pex_says o ltac:(assumption) ltac:(assumption)). sr 167%N.
  - sr 168%N.
  - pose proof (@pex_says o ltac:(assumption) ltac:(assumption)). sr 169%N.
Qed.
Lemma mode_says m : says S_row_lock_mode (p_mode m).
Proof. destruct m; cbn [p_mode]; [sr 327%N|sr 328%N|sr 329%N|sr 330%N]. Qed.
Lemma policy_says p : says S_opt_row_lock_policy (p_policy p).
Proof. destruct p; cbn [p_policy]; [sr 331%N|sr 332%N|sn 333%N]. Qed.
Lemma lock_says l : says S_locking_clause (p_lock l).
Proof.
  pose proof (mode_says (k_mode l)). pose proof (policy_says (k_policy l)). unfold p_lock. destruct (k_tables l) as [|c cs]; [sr 325%N|]. pose proof (@idents_says (c :: cs) ltac:(discriminate)). sr 326%N.
Qed.
Lemma locks_says l : says S_opt_locking_clause (p_locks l).
Proof.
  unfold p_locks. destruct l as [|c l]; [sn 322%N|]. su 321%N. eapply (@says_prow _ _ 323%N 324%N); [reflexivity|reflexivity|vm_compute; reflexivity|vm_compute; reflexivity|intros; reflexivity|intros; reflexivity|discriminate|].
  apply Forall_map_all. apply lock_says.
Qed.
Lemma bound_says b : says S_frame_bound (p_bound b).
Proof. destruct b; cbn [p_bound]; [sr 252%N|sr 253%N|sr 254%N|sr 255%N|sr 256%N]. Qed.
Lemma ftype_says t : says S_frame_type (p_ftype t).
Proof. destruct t; cbn [p_ftype]; [sr 249%N|sr 250%N|sr 251%N]. Qed.
Lemma frame_says f : says S_opt_frame_clause (p_frame f).
Proof.
  destruct f as [[t [b|a b]]|]; cbn [p_frame].
  - pose proof (ftype_says t). pose proof (bound_says b). sr 246%N.
  - pose proof (ftype_says t). pose proof (bound_says a). pose proof (bound_says b). sr 247%N.
  - sn 248%N.
Qed.
Lemma window_says w : window_ok w = true -> fine (window_parts w) -> says S_opt_window (p_window w).
Proof.
  unfold window_ok, window_parts. intros O F. bools. pose proof (@order_says (w_order w) ltac:(assumption) ltac:(assumption)). pose proof (frame_says (w_frame w)). unfold p_window.
  assert (says S_opt_partition (match w_part w with [] => nothing VNull | l => seq_ (arg 3) [kw TOK_PARTITION; kw TOK_BY; plist (map p_item l)] end)).
  { destruct (w_part w) as [|i l]; [sn 245%N|]. pose proof (@items_says (i :: l) eq_refl ltac:(assumption) ltac:(assumption)). sr 244%N. }
  sr 242%N.
Qed.

(** ** FROM *)
Lemma jtype_says t : says S_opt_join_type (p_jtype t).
Proof. destruct t; cbn [p_jtype]; [sn 352%N|sr 343%N|sr 344%N|sr 345%N|sr 346%N|sr 347%N|sr 348%N|sr 349%N|sr 350%N|sr 351%N]. Qed.
Lemma part_says c p : part_ok (c, p) -> says (kind_sym c) p.
Proof. intros H. apply said_says with (L := kind_level c); [exact H|]. destruct c; vm_compute; lia. Qed.
Lemma tname_values t k : values [p_tname t] k = [mk_table_name (schema_of t) (name_of t)].
Proof. destruct t as [[s|] n]; reflexivity. Qed.
Lemma tref_says r : tref_ok r = true -> fine (tref_parts r) -> says S_table_ref_atomic (p_tref r) /\ (match r with RTable _ _ | RSelect _ _ => True | _ => False end -> says S_nonjoin_table_ref_atomic (p_tref r)).
Proof.
  induction r as [t a|p a|l IHl r IHr|l IHl ty r IHr e|l IHl ty r IHr cols]; cbn [tref_ok tref_parts p_tref]; intros O F.
  - assert (A : talias_ok a = true) by (destruct a as [[|? []]|]; auto). apply talias_says in A. pose proof (tname_says t) as T.
    assert (N : says S_nonjoin_table_ref_atomic (p_tref (RTable t a))) by (su 303%N; cbn [p_tref]; sr 307%N; intros k _; destruct t as [[s|] n]; reflexivity).
    split; [su 301%N|intros _]; exact N.
  - assert (A : talias_ok a = true) by (destruct a as [[|? []]|]; auto). apply talias_says in A. inversion F as [|? ? P _]; subst. apply part_says in P. cbn [kind_sym] in P.
    assert (N : says S_nonjoin_table_ref_atomic (p_tref (RSelect p a))) by (cbn [p_tref]; sr 304%N). split; [su 301%N|intros _]; exact N.
  - bools. destruct (IHl ltac:(assumption) ltac:(assumption)) as [L _]. destruct (IHr ltac:(assumption) ltac:(assumption)) as [_ R]. split; [|intros []]. assert (R' : says S_nonjoin_table_ref_atomic (p_tref r)) by (apply R; destruct r; try discriminate; exact Logic.I).
    su 302%N. sr 340%N.
  - bools. destruct (IHl ltac:(assumption) ltac:(assumption)) as [L _]. destruct (IHr ltac:(assumption) ltac:(assumption)) as [R _]. split; [|intros []]. pose proof (@pex_says e ltac:(assumption) ltac:(assumption)) as E. pose proof (jtype_says ty).
    assert (says S_join_condition (pex e)) by su 353%N. su 302%N. sr 341%N.
  - bools. destruct (IHl ltac:(assumption) ltac:(assumption)) as [L _]. destruct (IHr ltac:(assumption) ltac:(assumption)) as [R _]. split; [|intros []]. pose proof (jtype_says ty).
    assert (C : cols <> []) by (destruct cols; discriminate). apply idents_says in C. su 302%N. sr 342%N.
Qed.
Lemma from_says l : forallb tref_ok l = true -> fine (flat_map tref_parts l) -> says S_opt_from_clause (p_from l).
Proof.
  intros O F. destruct l as [|r [|r2 l]]; cbn [p_from]; [sn 145%N| |].
  - cbn [forallb flat_map] in *. rewrite app_nil_r in F. bools. destruct (@tref_says r ltac:(assumption) ltac:(assumption)) as [R _]. assert (says S_table_ref (p_tref r)) by su 299%N. su 144%N. sr 146%N.
  - assert (FA : Forall (says S_table_ref_atomic) (map p_tref (r :: r2 :: l))) by (eapply Forall_map_says; [intros x A B; exact (proj1 (tref_says A B))|exact O|exact F]).
    set (ps := map p_tref (r :: r2 :: l)) in *. assert (NE : exists q qs, ps = (q :: qs) ++ [last ps (nothing VNull)]).
    { unfold ps. destruct (@exists_last _ (map p_tref (r2 :: l)) ltac:(discriminate)) as (x & y & E). exists (p_tref r), x. change (map p_tref (r :: r2 :: l)) with (p_tref r :: map p_tref (r2 :: l)). rewrite E. rewrite app_comm_cons, last_last. reflexivity. }
    destruct NE as (q & qs & E). rewrite E in FA. apply Forall_app in FA as [F1 F2]. pose proof (Forall_inv F2) as HL. set (z := last ps (nothing VNull)) in *.
    assert (LS : says S_table_ref_commalist (plist (q :: qs))) by (pl 305%N 306%N; [discriminate|exact F1]).
    assert (T : says S_table_ref (mkPart (commas (map (fun r => q_tok (p_tref r)) (r :: r2 :: l))) (fun k => obj CTableRef [(F_type, kTableCrossProduct); (F_list, vec (values ps k))]) (all_ok ps) (total ps) (list_stack (map (fun r => q_stack (p_tref r)) (r :: r2 :: l))))).
    { pose proof (says_pos HL) as POS. eapply (@says_rule 300%N _ _ [plist (q :: qs); kw 44; z]); [reflexivity|parts_|vm_compute; reflexivity| | | |].
      - cbn [q_tok flat_map]. rewrite <- (map_map p_tref q_tok). fold ps. rewrite E, map_app. cbn [map]. rewrite commas_snoc by discriminate. reflexivity.
      - intros k. cbn [q_ok q_obj all_ok values numbered_list plist kw token_part]. rewrite E. fold (values (q :: qs) k). fold (values ((q :: qs) ++ [z]) k). rewrite values_snoc, all_ok_snoc. cbn [q_params]. rewrite Nat.add_0_r, andb_true_r. cbn [andb]. cbn [all_ok].
        destruct (_ && _); reflexivity.
      - rewrite !total_cons. cbn [plist q_params kw token_part]. rewrite E, total_snoc. unfold total at 2. cbn. lia.
      - change (stack (map q_stack [plist (q :: qs); kw 44; z]) <= list_stack (map (fun r => q_stack (p_tref r)) (r :: r2 :: l))). rewrite <- (map_map p_tref q_stack). fold ps. rewrite E, map_app. cbn [map]. change (q_stack q :: map q_stack qs) with (map q_stack (q :: qs)). rewrite list_stack_snoc. pose proof (list_stack_pos (map q_stack (q :: qs))). cbn [plist q_stack kw token_part stack stack_from]. lia. }
    su 144%N. sr 146%N.
Qed.

(** ** SELECT *)
Lemma clause_says c : clause_ok c = true -> fine (clause_parts c) -> says S_select_clause (p_clause c).
Proof.
  unfold clause_ok, clause_parts. intros O F. bools.
  assert (says S_opt_top (p_top (c_top c))).
  { destruct (c_top c) as [z|]; cbn [p_top]; [|sn 164%N]. assert (I : says S_int_literal (seq_ (fun _ => int_lit z) [pnum z])) by sr 292%N. eapply (@says_rule 163%N _ _ [kw TOK_TOP; _]); [reflexivity|parts_|vm_compute; reflexivity|reflexivity|intros; reflexivity|reflexivity|cbn; lia]. }
  assert (says S_opt_distinct (p_distinct (c_distinct c))) by (destruct (c_distinct c); cbn [p_distinct]; [sr 141%N|sn 142%N]).
  assert (says S_select_list (plist (map p_item (c_items c)))) by (su 143%N; now apply items_says).
  assert (says S_opt_from_clause (p_from (c_from c))) by now apply from_says.
  assert (says S_opt_where (p_where (c_where c))) by now apply where_says.
  assert (says S_opt_group (p_group (c_group c) (c_having c))).
  { unfold p_group. destruct (c_group c) as [|i l]; [sn 150%N|]. assert (says S_expr_list (plist (map p_item (i :: l)))) by now apply items_says.
    assert (says S_opt_having (p_having (c_having c))) by (destruct (c_having c) as [e|]; cbn [p_having]; [|sn 152%N]; pose proof (@pex_says e ltac:(assumption) ltac:(assumption)); sr 151%N). sr 149%N. }
  unfold p_clause. sr 140%N.
Qed.
Lemma setop_says o all : says S_set_operator (p_setop o all).
Proof.
  unfold p_setop. assert (A : says S_opt_all (if all then seq_ (fun _ => VBool true) [kw TOK_ALL] else nothing (VBool false))) by (destruct all; [sr 138%N|sn 139%N]).
  assert (T : says S_set_type (seq_ (fun _ => set_type match o with Union => kSetUnion | Intersect => kSetIntersect | Except => kSetExcept end) [kw match o with Union => TOK_UNION | Intersect => TOK_INTERSECT | Except => TOK_EXCEPT end])) by (destruct o; [sr 135%N|sr 136%N|sr 137%N]).
  eapply (@says_rule 134%N); [reflexivity|parts_|vm_compute; reflexivity|destruct all; reflexivity|intros k; destruct o, all; reflexivity|destruct all; reflexivity|destruct all; cbn; lia].
Qed.
Scheme query_mut := Induction for query Sort Prop with pquery_mut := Induction for pquery Sort Prop with operand_mut := Induction for operand_ Sort Prop.
Combined Scheme query_mind from query_mut, pquery_mut, operand_mut.
Lemma tail_says o l : tail_ok o l = true -> fine (tail_parts o l) -> says S_opt_order (p_order o) /\ says S_opt_limit (p_limit l).
Proof. unfold tail_ok, tail_parts. intros O F. bools. split; [now apply order_says|now apply limit_says]. Qed.
Lemma queries_say : (forall q, query_ok q = true -> fine (query_parts q) -> says S_select_no_paren (p_query q)) /\ (forall p, pquery_ok p = true -> fine (pquery_parts p) -> says S_select_with_paren (p_pquery p)) /\
  (forall r, operand_ok r = true -> fine (operand_parts r) -> says S_select_within_set_operation (p_operand r)).
Proof.
  apply query_mind.
  - intros c o l k. cbn [query_ok query_parts p_query]. intros O F. bools. destruct (@tail_says o l ltac:(assumption) ltac:(assumption)). pose proof (@clause_says c ltac:(assumption) ltac:(assumption)). pose proof (locks_says k). sr 132%N.
    intros n _. destruct l; reflexivity.
  - intros c s all r IH o l k. cbn [query_ok query_parts p_query]. intros O F. bools. destruct (@tail_says o l ltac:(assumption) ltac:(assumption)). pose proof (@clause_says c ltac:(assumption) ltac:(assumption)). pose proof (locks_says k).
    pose proof (setop_says s all). specialize (IH ltac:(assumption) ltac:(assumption)). sr 133%N.
  - intros q IH. cbn [pquery_ok pquery_parts p_pquery]. intros O F. specialize (IH O F). unfold paren. sr 130%N.
  - intros q IH. cbn [pquery_ok pquery_parts p_pquery]. intros O F. specialize (IH O F). unfold paren. sr 131%N.
  - intros q IH. cbn [operand_ok operand_parts p_operand]. intros O F. specialize (IH O F). su 126%N.
  - intros c. cbn [operand_ok operand_parts p_operand]. intros O F. su 127%N. su 128%N. now apply clause_says.
  - intros c s all r IH. cbn [operand_ok operand_parts p_operand]. intros O F. bools. specialize (IH ltac:(assumption) ltac:(assumption)). pose proof (@clause_says c ltac:(assumption) ltac:(assumption)). pose proof (setop_says s all). su 127%N. sr 129%N.
Qed.
Lemma withs_says w : forallb (fun d => pquery_ok (snd d)) w = true -> fine (flat_map (fun d : bytes * pquery => pquery_parts (snd d)) w) -> says S_opt_with_clause (p_withs w).
Proof.
  intros O F. unfold p_withs. destruct w as [|d w]; [sn 335%N|]. su 334%N.
  assert (says S_with_description_list (plist (map (fun d => seq_ (fun v => obj CWithDescription [(F_alias, arg 1 v); (F_select, arg 3 v)]) [pid (fst d); kw TOK_AS; p_pquery (snd d)]) (d :: w)))).
  { pl 337%N 338%N; [discriminate|]. eapply Forall_map_says; [|exact O|exact F]. intros x A B. pose proof (proj1 (proj2 queries_say) (snd x) A B). sr 339%N. }
  sr 336%N.
Qed.
Lemma select_says w s : select_ok w s = true -> fine (select_parts w s) -> says S_select_statement (p_select w s).
Proof.
  unfold select_ok, select_parts. intros O F. bools. pose proof (@withs_says w ltac:(assumption) ltac:(assumption)). destruct s as [q|p|p o all r ord l]; cbn [p_select].
  - pose proof (proj1 queries_say q ltac:(assumption) ltac:(assumption)). sr 124%N.
  - pose proof (proj1 (proj2 queries_say) p ltac:(assumption) ltac:(assumption)). sr 123%N.
  - bools. pose proof (proj1 (proj2 queries_say) p ltac:(assumption) ltac:(assumption)). pose proof (proj2 (proj2 queries_say) r ltac:(assumption) ltac:(assumption)). pose proof (setop_says o all). destruct (@tail_says ord l ltac:(assumption) ltac:(assumption)). sr 125%N.
Qed.
Lemma legal_ok c : legal c -> part_ok c.
Proof.
  assert (S : forall X p L, says X p -> (forall k, q_ok p k = true) -> lev X = L -> forall k, q_ok p k = true /\ said X (q_tok p) k (q_obj p k) (k + q_params p) L L (q_stack p)).
  { intros X p L H O <- k. split; [apply O|]. exact (says_said H (O k)). }
  induction 1 as [q O C _ IH|w O C _ IH|w s O C _ IH]; unfold part_ok; cbn [kind_sym kind_level]; apply S; auto.
  - apply queries_say; [exact O|]. apply Forall_forall. exact IH.
  - apply window_says; [exact O|]. apply Forall_forall. exact IH.
  - apply select_says; [exact O|]. apply Forall_forall. exact IH.
Qed.
