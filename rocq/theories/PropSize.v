(** Property C29: sizes.  Lists of any length are parsed; nesting deeper than the parser stack gives the error "memory exhausted".

    Vocabulary.  [spells], [semicolon] (Spell.v, Phrase.v): texts of tokens.  [stmt], [p_stmt], [script_legal] (Stmt.v, Legal.v): statements, how
    they are written, which are well-formed.  [q_stack], [xstack]: parser stack entries used.  [derives], [respects], [need], [sem]: Grammar.v, Prec.v, Sem.v. *)
From Verif Require Import Script PropStmt.
From Verif Require Import LexScan LexWords LexTok Part Expr Stmt Legal.
From Coq Require Import ZifyBool ZifyNat ZifyN.
Local Open Scope nat_scope.

(** ** Too deep *)
Lemma ustep_sems a b : ustep a = ACont b -> sems (atrees a) 0 = None -> sems (atrees b) 0 = None.
Proof.
  destruct a as [stk lk toks]. unfold ustep. cbn [a_stk a_look a_toks]. destruct (_ =? YYFINAL)%Z; [discriminate|].
  destruct (decide _ _) as [[|s'|r|]|]; try discriminate.
  - destruct toks; [discriminate|]. intros E N. injection E as <-. exact N.
  - destruct lk; [|discriminate]. intros E N. injection E as <-. rewrite atrees_cons. now apply sems_none_app.
  - destruct (production _) as [[lhs rhs]|]; [|discriminate]. destruct (goto_of _ _); [|discriminate]. intros E N. injection E as <-.
    rewrite (atrees_split (List.length rhs)) in N. rewrite atrees_cons. apply sems_none_node. exact N.
Qed.
Lemma runs_sems m a b : runs m a b -> sems (atrees a) 0 = None -> sems (atrees b) 0 = None.
Proof. induction 1 as [a|a x b L E H IH]; intro N; [exact N|]. apply IH. eapply ustep_sems; eassumption. Qed.
(** The parse failed with "memory exhausted" (and returned, so there was no undefined behaviour). *)
Definition exhausted (sql : bytes) : Prop :=
  forall buf0, exists e x, parse buf0 sql fresh_env = PRet 2 e /\ e_valid e = false /\ e_msg e = VStr x (la "memory exhausted").
(** Every input with a derivation that needs more entries than there are. *)
Theorem C29_exhausted : forall sql ts stmts semi eof l n, tokens sql ts ->
  derives S_input (Node 2 [stmts; semi]) -> yield (Node 2 [stmts; semi]) ++ [eof] = ts -> sym_of eof = 0%N ->
  respects (Node 2 [stmts; semi]) 0 = true -> sem stmts 0 = Some (VVec 0 l, n) -> 199 <= need (Node 2 [stmts; semi]) -> exhausted sql.
Proof.
  intros sql ts stmts semi eof l n T D Y K R S NB buf0. destruct (@parse_eq buf0 sql ts fresh_env T) as (EE & TO & PE).
  destruct (exhausted_run D K R NB) as (x & X1 & X2). rewrite Y in X1.
  destruct (input_run D K R) as (mid & f & F1 & _ & F2 & F3 & F4 & _). rewrite Y in F1. pose proof (runs_trans F1 F2) as F.
  assert (NS : sems (atrees f) 0 <> None).
  { rewrite F4. cbn [sems]. pose proof (sem_input D S) as Q. destruct (sem (Node 2 [stmts; semi]) 0) as [[v m]|]; [discriminate|now destruct Q]. }
  assert (H0 : heap fresh_env (fun x => cas x (e_stmts fresh_env) + 0)) by (eapply heap_ext; [apply heap_fresh|reflexivity]).
  destruct (@yyparse_explained ts fresh_env (fun _ => 0) TO eq_refl eq_refl EE H0) as (b & B1 & X).
  assert (NO : forall b', astep b = ACont b' -> sems (atrees b') 0 <> None).
  { intros b' E N. assert (BB : asteps (astart ts) b') by (eapply asteps_trans; [exact B1|now apply asteps_one]). apply asteps_runs in BB.
    destruct (runs_det F BB) as [Z|Z]; [|apply NS; eapply runs_sems; eassumption]. inversion Z as [|? ? ? ? E2]; subst; [now apply NS|rewrite F3 in E2; discriminate]. }
  assert (TB : (forall y, astep b <> ACont y) -> x = b) by (intro NB'; eapply asteps_end; [exact X1|exact B1|rewrite X2; discriminate|exact NB']).
  rewrite PE. destruct (yyparse ts fresh_env) as [r e|u|].
  - destruct X as [(-> & A & _)|(_ & _ & W)].
    + exfalso. assert (x = b) by (apply TB; rewrite A; discriminate). subst b. congruence.
    + destruct W as [(-> & _ & (y & W) & _)|[(_ & W & _)|(_ & b' & W & W2)]].
      * exists (set_valid false e), y. split; [reflexivity|]. split; [reflexivity|exact W].
      * exfalso. assert (x = b) by (apply TB; rewrite W; discriminate). subst b. congruence.
      * exfalso. eapply NO; eassumption.
  - exfalso. destruct X as (_ & b' & W & W2). eapply NO; eassumption.
  - destruct X.
Qed.

(** *** Parentheses *)
(** Open parentheses at the end of a token sequence; [nested n l]: at some place of [l] there are at least [n] open parentheses. *)
Definition is_open (c : Z * tokval) : bool := (fst c =? 40)%Z.
Definition is_close (c : Z * tokval) : bool := (fst c =? 41)%Z.
Definition open_at (l : list (Z * tokval)) : Z := Z.of_nat (List.length (filter is_open l)) - Z.of_nat (List.length (filter is_close l)).
Definition nested (n : nat) (l : list (Z * tokval)) : Prop := exists p q, l = p ++ q /\ (Z.of_nat n <= open_at p)%Z.
Lemma open_at_app a b : open_at (a ++ b) = (open_at a + open_at b)%Z.
Proof. unfold open_at. rewrite !filter_app, !app_length. lia. Qed.
Definition sym_open (X : N) : Z := if N.eqb X S_lpar then 1%Z else if N.eqb X S_rpar then (-1)%Z else 0%Z.
Definition opens (Xs : list N) : Z := fold_right (fun X n => (sym_open X + n)%Z) 0%Z Xs.
Lemma balanced_rules : forallb (fun p => (opens (snd (snd p)) =? 0)%Z && (negb (N.eqb (fst (snd p)) S_lpar) && negb (N.eqb (fst (snd p)) S_rpar))) GrammarDef.grammar = true.
Proof. vm_compute. reflexivity. Qed.
Lemma par_syms : forallb (fun c => negb (N.eqb (sym_of_code c) S_lpar) || (c =? 40)%Z) (TableCheck.zrange 437 0) && forallb (fun c => negb (N.eqb (sym_of_code c) S_rpar) || (c =? 41)%Z) (TableCheck.zrange 437 0) = true.
Proof. vm_compute. reflexivity. Qed.
Lemma open_one k : open_at [core k] = sym_open (sym_of k).
Proof.
  assert (R : (0 <= t_code k <= 436)%Z \/ (t_code k < 0)%Z \/ (436 < t_code k)%Z) by lia.
  destruct R as [R|[R|R]]; [|unfold open_at, core, is_open, is_close, sym_of, sym_of_code; cbn [filter fst]; replace (t_code k =? 40)%Z with false by lia; replace (t_code k =? 41)%Z with false by lia..].
  2: replace (t_code k <=? 0)%Z with true by lia; reflexivity.
  2: replace (t_code k <=? 0)%Z with false by lia; unfold yytranslate_of; replace (t_code k <=? YYMAXUTOK)%Z with false by (unfold YYMAXUTOK; lia); rewrite andb_false_r; reflexivity. destruct (Z.eq_dec (t_code k) 40) as [E|E]; [unfold open_at, core, is_open, is_close, sym_of; rewrite E; reflexivity|].
  destruct (Z.eq_dec (t_code k) 41) as [F|F]; [unfold open_at, core, is_open, is_close, sym_of; rewrite F; reflexivity|].
  unfold open_at, core, is_open, is_close. cbn [filter fst]. replace (t_code k =? 40)%Z with false by lia. replace (t_code k =? 41)%Z with false by lia. cbn [List.length].
  pose proof par_syms as A. apply andb_prop in A as [A B]. assert (I : In (t_code k) (TableCheck.zrange 437 0)) by (apply TableCheck.zrange_In; lia).
  pose proof (proj1 (forallb_forall _ _) A _ I) as A1. pose proof (proj1 (forallb_forall _ _) B _ I) as B1. cbn beta in A1, B1. unfold sym_open, sym_of.
  destruct (N.eqb (sym_of_code (t_code k)) S_lpar); [cbn [negb orb] in A1; lia|]. destruct (N.eqb (sym_of_code (t_code k)) S_rpar); [cbn [negb orb] in B1; lia|]. reflexivity.
Qed.

Lemma derives_open X t : derives X t -> open_at (map core (yield t)) = sym_open X.
Proof.
  refine (@derives_mind (fun X t _ => open_at (map core (yield t)) = sym_open X) (fun Xs ts _ => open_at (map core (yields ts)) = opens Xs) _ _ _ _ X t).
  - intro k. apply open_one.
  - intros r lhs rhs ts P _ IH. cbn [yield]. fold (yields ts). rewrite IH. pose proof (proj1 (forallb_forall _ _) balanced_rules _ (production_In P)) as A. cbn [fst snd] in A.
    apply andb_prop in A as [A B]. apply andb_prop in B as [B C]. unfold sym_open. apply negb_true_iff in B, C. rewrite B, C. lia.
  - reflexivity.
  - intros Y Xs u us _ IH _ IH2. unfold yields. cbn [flat_map]. rewrite map_app, open_at_app. cbn [opens fold_right]. fold (opens Xs). now rewrite IH, <- IH2.
Qed.
Lemma sym_open_le X : (sym_open X <= 1)%Z. Proof. unfold sym_open. repeat destruct (N.eqb _ _); lia. Qed.
(** The open parentheses at any place are on the stack. *)
Lemma derives_need X t : derives X t -> forall p q, map core (yield t) = p ++ q -> (open_at p <= Z.of_nat (need t))%Z.
Proof.
  refine (@derives_mind (fun X t _ => forall p q, map core (yield t) = p ++ q -> (open_at p <= Z.of_nat (need t))%Z)
    (fun Xs ts _ => forall i p q, map core (yields ts) = p ++ q -> (open_at p + Z.of_nat i <= Z.of_nat (Nat.max i (need_all ts i)))%Z) _ _ _ _ X t).
  - intros k p q E. cbn [yield map need] in *. destruct p as [|c p]; [cbn; lia|]. cbn [app] in E. injection E as <- E. destruct p; [|discriminate]. pose proof (open_one k) as O. pose proof (sym_open_le (sym_of k)). lia.
  - intros r lhs rhs ts P _ IH p q E. cbn [yield] in E. fold (yields ts) in E. rewrite need_node. specialize (IH 0 p q E). lia.
  - intros i p q E. cbn in E. destruct p; [|discriminate]. cbn. lia.
  - intros Y Xs u us DU IH _ IH2 i p q E. unfold yields in E. cbn [flat_map] in E. rewrite map_app in E. fold (yields us) in E. cbn [need_all].
    apply app_eq_app in E as (m & [[E1 E2]|[E1 E2]]).
    + specialize (IH p m E1). lia.
    + subst p. specialize (IH2 (S i) m q E2). rewrite open_at_app, (derives_open _ _ DU). pose proof (sym_open_le Y). pose proof (need_pos u). lia.
Qed.
(** The derivation of a written script, whatever its size. *)
Lemma script_derivation l b text : script_legal l -> spells (q_tok (p_script l) ++ semicolon b) text ->
  exists ts stmts semi eof, tokens text ts /\ derives S_input (Node 2 [stmts; semi]) /\ yield (Node 2 [stmts; semi]) ++ [eof] = ts /\ sym_of eof = 0%N /\ respects (Node 2 [stmts; semi]) 0 = true /\
    sem stmts 0 = (if q_ok (p_script l) 0 then Some (VVec 0 (script_objs l), q_params (p_script l)) else None) /\ map core ts = q_tok (p_script l) ++ semicolon b ++ [(0%Z, TVNone)].
Proof.
  intros LG SP. apply legal_script in LG. destruct (LG 0) as (t & A1 & B1 & C1 & D1 & _ & _). set (t2 := if b then Node 354 [Leaf (mk (59%Z, TVNone))] else Node 355 []).
  assert (W : derives S_opt_semicolon t2 /\ map core (yield t2) = semicolon b /\ respects t2 0 = true).
  { unfold t2. destruct b; (split; [|repeat split]).
    - apply (@wf_derives (Node 354 [Leaf (mk (59%Z, TVNone))])). vm_compute. reflexivity.
    - apply (@wf_derives (Node 355 [])). vm_compute. reflexivity. }
  destruct W as (A2 & B2 & D2). destruct (spells_tokens SP) as (ts & T & ET).
  assert (DT : derives S_input (Node 2 [t; t2])) by (econstructor; [apply production_2|]; repeat (constructor; try eassumption)).
  assert (RT : respects (Node 2 [t; t2]) 0 = true).
  { rewrite respects_node. replace (may_end 2 0) with true by reflexivity. replace (Prec.tail_ok 2 [t; t2]) with true; [|symmetry; unfold Prec.tail_ok; cbn [rev app]; apply forallb_forall; intros; reflexivity].
    cbn [respects_all andb]. change (first_of [] 0) with 0%N. rewrite D2. rewrite !andb_true_r. apply D1. rewrite (@first_of_next [t2] 0%N (semicolon b)); [|unfold yields; cbn [flat_map]; rewrite app_nil_r; exact B2].
    destruct lev_stmts as [L1 L2]. destruct b; cbn [semicolon next_sym]; assumption. }
  assert (E : map core ts = map core (yield (Node 2 [t; t2]) ++ [mk (0%Z, TVNone)])).
  { rewrite ET, map_app. cbn [yield flat_map]. rewrite app_nil_r, map_app, B1, B2. reflexivity. }
  rewrite map_app in E. destruct (map_eq_app _ _ _ _ E) as (k1 & k2 & -> & E1 & E2). destruct k2 as [|eof [|]]; try discriminate E2.
  symmetry in E1. destruct (relabel E1) as (u & SM & YU). destruct u as [|r us]; [destruct SM|]. pose proof SM as SM0. apply similar_node in SM as [<- SM].
  destruct us as [|a [|c [|]]]; try (destruct SM as [? []]; fail); try (destruct SM as [? [? []]]; fail); try (destruct SM; fail).
  exists (k1 ++ [eof]), a, c, eof. split; [exact T|]. split; [eapply similar_derives; [exact DT|exact SM0]|]. split; [now rewrite YU|]. split; [change 0%N with (sym_of (mk (0%Z, TVNone))); apply core_sym; cbn [map] in E2; congruence|].
  split; [rewrite <- RT; symmetry; now apply similar_respects|]. split; [rewrite <- script_vec; cbn [Nat.add] in C1; rewrite <- C1; symmetry; apply similar_sem; apply SM|]. rewrite ET. now rewrite <- app_assoc.
Qed.
(** Well-formed scripts in which parentheses are nested 199 deep or more. *)
Theorem C29_nesting : forall l b text, script_legal l -> q_ok (p_script l) 0 = true -> nested 199 (q_tok (p_script l)) -> spells (q_tok (p_script l) ++ semicolon b) text -> exhausted text.
Proof.
  intros l b text LG OK (p & q & E & N) SP. destruct (script_derivation l b text LG SP) as (ts & stmts & semi & eof & T & D & Y & K & R & S & C). rewrite OK in S.
  eapply C29_exhausted; [exact T|exact D|exact Y|exact K|exact R|exact S|].
  enough (199 <= Z.of_nat (need (Node 2 [stmts; semi])))%Z by lia. etransitivity; [exact N|].
  assert (E2 : exists q', map core (yield (Node 2 [stmts; semi])) = p ++ q').
  { exists (q ++ semicolon b). rewrite <- Y, map_app in C. cbn [map] in C. rewrite app_assoc in C. apply app_inj_tail in C as [C _]. rewrite C, E. now rewrite <- app_assoc. }
  destruct E2 as (q' & E2). eapply derives_need; eassumption.
Qed.
(** Whatever the input: nested that deep it is not accepted. *)
Theorem C29_never_accepted : forall buf0 sql ts r e, tokens sql ts -> nested 199 (map core ts) -> parse buf0 sql fresh_env = PRet r e -> e_valid e = false.
Proof.
  intros buf0 sql ts r e T (p & q & E & N) P. destruct (e_valid e) eqn:V; [|reflexivity]. exfalso.
  apply (C04_valid_iff _ _ _ _ _ T P) in V. destruct V as (stmts & semi & eof & l & n & D & Y & K & _ & NB & _).
  rewrite <- Y, map_app in E. cbn [map] in E.
  assert (A : (open_at p <= Z.of_nat (need (Node 2 [stmts; semi])))%Z).
  { destruct q as [|c q _] using rev_ind.
    - rewrite app_nil_r in E. rewrite <- E, open_at_app, (derives_open _ _ D), (open_one eof), K. cbn [sym_open]. change (sym_open S_input) with 0%Z. change (sym_open 0) with 0%Z. lia.
    - rewrite app_assoc in E. apply app_inj_tail in E as [E _]. eapply derives_need; eassumption. }
  lia.
Qed.

(** ** Lists of any length *)
Lemma list_stack_le m l : Forall (fun x => x <= m) l -> list_stack l <= 2 + m.
Proof. unfold list_stack. induction 1 as [|x l H F IH]; cbn [fold_right]; lia. Qed.
Lemma stack_from_le m l : forall i, Forall (fun x => x <= m) l -> stack_from i l <= i + List.length l + m + 1.
Proof. induction l as [|x l IH]; intros i F; cbn [stack_from List.length]; [lia|]. inversion F as [|? ? A B]; subst. specialize (IH (S i) B). lia. Qed.
Lemma stack_le m l : Forall (fun x => x <= m) l -> stack l <= List.length l + m + 1.
Proof. intro F. apply (stack_from_le m l 0 F). Qed.
(** Statement lists: every statement is small enough, their number does not matter. *)
Theorem C29_statement_list : forall l b text, script_legal l -> Forall (fun s => q_stack (p_hinted s) <= 196) l -> q_ok (p_script l) 0 = true -> spells (q_tok (p_script l) ++ semicolon b) text ->
  accepted_with text (script_objs l) (q_params (p_script l)) /\ List.length (script_objs l) = List.length l.
Proof.
  intros l b text LG F OK SP. split.
  - apply (script_accepted (b := b) LG); [|exact SP|exact OK]. cbn [p_script q_stack]. apply list_stack_le. rewrite map_map. now apply Forall_map.
  - unfold script_objs. cbn [p_script q_obj elems vec]. rewrite map_length. unfold values. clear. generalize 0. induction l as [|s l IH]; intro k; [reflexivity|]. cbn [map numbered_list List.length]. now rewrite IH.
Qed.
(** Select lists, FROM lists. *)
Definition select_from (items : list item) (from : list tref) (w : option ex) : stmt := SSelect [] (SQuery (QSelect (PropStmt.plain items from w) [] LNone [])).
Definition item_stack (i : item) : nat := q_stack (p_item i).
Lemma select_from_stack m items from w : Forall (fun i => q_stack (p_item i) <= m) items -> Forall (fun r => q_stack (p_tref r) <= m) from -> match w with Some e => xstack e <= m | None => True end ->
  q_stack (p_stmt (select_from items from w)) <= 20 + m.
Proof.
  intros A B C. assert (Q1 : list_stack (map q_stack (map p_item items)) <= 2 + m) by (apply list_stack_le; rewrite map_map; now apply Forall_map).
  assert (Q2 : q_stack (p_from from) <= 6 + m).
  { destruct from as [|r [|r2 from]]; cbn [p_from].
    - cbn. lia.
    - inversion B; subst. cbn [seq_ seqp q_stack map kw token_part stack stack_from]. lia.
    - cbn [seq_ seqp q_stack map kw token_part stack stack_from]. assert (Q : list_stack (map (fun r => q_stack (p_tref r)) (r :: r2 :: from)) <= 2 + m) by (apply list_stack_le; now apply Forall_map). cbn [map] in Q. lia. }
  assert (Q3 : q_stack (p_where w) <= 3 + m) by (destruct w as [e|]; cbn [p_where nothing seq_ seqp q_stack map kw token_part stack stack_from pex]; lia).
  unfold select_from. cbn [p_stmt p_select p_query p_clause seq_ seqp q_stack map p_withs nothing plist PropStmt.plain c_items c_top c_distinct c_from c_where c_group c_having p_top p_distinct p_group p_order p_limit p_locks kw token_part stack stack_from].
  lia.
Qed.
Theorem C29_select_list : forall items from w b text, let s := select_from items from w in stmt_legal s -> q_ok (p_stmt s) 0 = true ->
  Forall (fun i => q_stack (p_item i) <= 176) items -> Forall (fun r => q_stack (p_tref r) <= 176) from -> match w with Some e => xstack e <= 176 | None => True end ->
  spells (q_tok (p_stmt s) ++ semicolon b) text ->
  exists v, accepted_with text [v] (q_params (p_stmt s)) /\ List.length (elems (fget F_selectList v)) = List.length items.
Proof.
  intros items from w b text s LG OK A B C SP. exists (finished s). split; [apply (stmt_accepted _ b); auto; apply (select_from_stack 176); assumption|].
  unfold finished, s. cbn. unfold values. clear. generalize 0. induction items as [|i items IH]; intro k; [reflexivity|]. cbn [map numbered_list List.length]. now rewrite IH.
Qed.
(** VALUES lists. *)
Lemma numbered_length A (f : A -> part) l : forall k, List.length (numbered_list q_obj q_params (map f l) k) = List.length l.
Proof. induction l as [|i l IH]; intro k; [reflexivity|]. cbn [map numbered_list List.length]. now rewrite IH. Qed.
Lemma clit_stack v : q_stack (p_clit v) <= 10.
Proof.
  assert (L : forall l, xstack (lit_ex l) <= 3) by (intros [| | | | | | | ? [|]|]; cbn; lia).
  assert (X : forall l, q_stack (p_xlit l) <= 4) by (intros [l| | | |? [|]]; cbn [p_xlit p_lit q_stack]; [specialize (L l); lia|cbn; lia..]).
  destruct v as [l|l t]; cbn [p_clit]; specialize (X l); [lia|]. cbn [seq_ seqp q_stack map kw token_part stack stack_from ptype]. lia.
Qed.
Theorem C29_values_list : forall t cols vals b text, let s := SInsert t cols vals in vals <> [] -> q_ok (p_stmt s) 0 = true -> spells (q_tok (p_stmt s) ++ semicolon b) text ->
  exists v, accepted_with text [v] (q_params (p_stmt s)) /\ List.length (elems (fget F_values v)) = List.length vals.
Proof.
  intros t cols vals b text s NE OK SP. exists (finished s). split.
  - apply (stmt_accepted _ b); auto.
    + split; [destruct vals; [now elim NE|reflexivity]|constructor].
    + assert (Q1 : list_stack (map q_stack (map p_clit vals)) <= 12) by (apply list_stack_le; rewrite map_map; apply Forall_map, Forall_forall; intros; apply clit_stack).
      assert (Q2 : q_stack (p_tname t) <= 3) by (unfold p_tname; destruct (t_schema t); cbn; lia).
      assert (Q3 : q_stack (p_columns cols) <= 6).
      { assert (Q : list_stack (map q_stack (map pid cols)) <= 3) by (apply list_stack_le; rewrite map_map; apply Forall_map, Forall_forall; intros; cbn; lia).
        unfold p_columns. destruct cols as [|c cols]; [cbn; lia|]. cbn [paren seq_ seqp q_stack ident_list plist]. cbn [map kw token_part q_stack stack stack_from ident_list plist] in *. lia. }
      unfold s. cbn [p_stmt seq_ seqp q_stack]. cbn [map]. cbn [plist q_stack kw token_part stack stack_from]. lia.
  - unfold finished, s. cbn. unfold values. apply numbered_length.
Qed.
(** Chains of one operator. *)
Definition chain_of (o : bop) (e : ex) (es : list ex) : ex := fold_left (XBin o) es e.
Definition link_ok (o : bop) (e : ex) : Prop := fits e = true /\ (logical o = true \/ operand e = true) /\ left_level o <= xright e /\ right_level o <= xleft e /\ Forall legal (xparts e) /\ xstack e <= 180.
Definition associative (o : bop) : Prop := In o [BMinus; BPlus; BSlash; BStar; BPercent; BCaret; BConcat; BAnd; BOr].
Lemma chain_fits o es : associative o -> forall e, fits e = true -> (logical o = true \/ operand e = true) -> left_level o <= xright e -> Forall legal (xparts e) -> xstack e <= 182 -> Forall (link_ok o) es ->
  fits (chain_of o e es) = true /\ Forall legal (xparts (chain_of o e es)) /\ xstack (chain_of o e es) <= 182.
Proof.
  intro A. induction es as [|e2 es IH]; intros e F O R P S L; [auto|]. inversion L as [|? ? (F2 & O2 & R2 & L2 & P2 & S2) LL]; subst. cbn [chain_of fold_left]. apply IH; try assumption.
  - cbn [fits]. rewrite F, F2. replace (left_level o <=? xright e) with true by lia. replace (right_level o <=? xleft e2) with true by lia. rewrite !andb_true_r. cbn [andb].
    destruct (logical o); [reflexivity|]. destruct O as [O|O], O2 as [O2|O2]; try discriminate. now rewrite O, O2.
  - cbn [operand]. destruct (logical o); [now left|now right].
  - cbn [xright]. assert (left_level o = blevel o). { unfold associative in A. cbn [In] in A. repeat (destruct A as [<-|A]; [reflexivity|]). destruct A. } lia.
  - cbn [xparts]. apply Forall_app. auto.
  - assert (NL : o <> BNotLike). { intros ->. unfold associative in A. cbn [In] in A. repeat (destruct A as [A|A]; [discriminate A|]). destruct A. }
    destruct o; try congruence; cbn [xstack stack stack_from]; lia.
Qed.
Theorem C29_operator_chain : forall o e es b text, associative o -> link_ok o e -> Forall (link_ok o) es -> spells ((K TOK_SELECT :: xtok (chain_of o e es)) ++ semicolon b) text ->
  exists s, accepted_with text [s] (xparams (chain_of o e es)) /\ fget F_selectList s = vec [xobj (chain_of o e es) 0].
Proof.
  intros o e es b text A (F & O & R & _ & P & S) L SP. destruct (chain_fits o es A e F O R P ltac:(lia) L) as (F' & P' & S'). apply (C06_unparenthesised _ b); auto.
Qed.
(** Its text: the operands with the operator between them. *)
Lemma chain_tok o es : forall e, xtok (chain_of o e es) = xtok e ++ flat_map (fun x => btok o ++ xtok x) es.
Proof. induction es as [|x es IH]; intro e; cbn [chain_of fold_left flat_map]; [now rewrite app_nil_r|]. change (fold_left (XBin o) es (XBin o e x)) with (chain_of o (XBin o e x) es). rewrite IH. cbn [xtok]. now rewrite <- !app_assoc. Qed.
(** Chains of joins. *)
Record join_ := mkJoin { j_type : jtype; j_right : tref; j_on : ex }.
Definition joins (r : tref) (js : list join_) : tref := fold_left (fun l j => ROn l (j_type j) (j_right j) (j_on j)) js r.
Lemma joins_stack m js : Forall (fun j => q_stack (p_tref (j_right j)) <= m /\ xstack (j_on j) <= m) js -> forall r, q_stack (p_tref r) <= 6 + m -> q_stack (p_tref (joins r js)) <= 6 + m.
Proof.
  induction 1 as [|j js [A B] F IH]; intros r R; [exact R|]. cbn [joins fold_left]. apply IH. cbn [p_tref seq_ seqp q_stack map kw token_part stack stack_from pex].
  assert (q_stack (p_jtype (j_type j)) <= 2) by (destruct (j_type j); cbn; lia). lia.
Qed.
Theorem C29_join_chain : forall items r js b text, let s := select_from items [joins r js] None in stmt_legal s -> q_ok (p_stmt s) 0 = true -> Forall (fun i => q_stack (p_item i) <= 176) items ->
  q_stack (p_tref r) <= 170 -> Forall (fun j => q_stack (p_tref (j_right j)) <= 170 /\ xstack (j_on j) <= 170) js -> spells (q_tok (p_stmt s) ++ semicolon b) text ->
  exists v, accepted_with text [v] (q_params (p_stmt s)).
Proof.
  intros items r js b text s LG OK A R J SP. destruct (C29_select_list items [joins r js] None b text LG OK A) as (v & V & _); [|exact I|exact SP|eauto].
  constructor; [|constructor]. change 176 with (6 + 170). apply joins_stack; [exact J|lia].
Qed.

(** ** Examples *)
Fixpoint parens (n : nat) (e : ex) : ex := match n with O => e | S n => XParen (parens n e) end.
Lemma parens_facts n e : fits (parens n e) = fits e /\ xparts (parens n e) = xparts e /\ xparams (parens n e) = xparams e /\ xstack (parens n e) <= n + 3 + xstack e /\ xtok (parens n e) = repeat lpar n ++ xtok e ++ repeat rpar n.
Proof.
  induction n as [|n (A & B & C & D & E)]; cbn [parens fits xparts xparams xstack xtok repeat]; [rewrite app_nil_r; repeat split; lia|]. repeat split; try assumption.
  - cbn [stack stack_from]. lia.
  - rewrite E. cbn [app]. rewrite <- !app_assoc. do 2 f_equal. f_equal. clear. induction n as [|n IH]; [reflexivity|]. cbn [repeat app]. now rewrite IH.
Qed.
(** SELECT ((...(a)...)): up to 180 parentheses are accepted, 199 and more exhaust the stack. *)
Theorem C29_parentheses : forall n text, spells ([K TOK_SELECT] ++ repeat lpar n ++ [Id (la "a")] ++ repeat rpar n) text ->
  (n <= 180 -> exists s, accepted_with text [s] 0 /\ fget F_selectList s = vec [xobj a_ 0]) /\ (199 <= n -> exhausted text).
Proof.
  intros n text SP. destruct (parens_facts n a_) as (A & B & C & D & E). cbn [xtok] in E. unfold a_ in E. cbn [c_ xtok] in E. split; intro N.
  - assert (O : xobj (parens n a_) 0 = xobj a_ 0) by (clear; induction n as [|n IH]; [reflexivity|exact IH]). change (xparams a_) with 0 in C. change (xstack a_) with 1 in D.
    assert (Q : exists s, accepted_with text [s] (xparams (parens n a_)) /\ fget F_selectList s = vec [xobj (parens n a_) 0]).
    { apply (C06_unparenthesised _ false); [rewrite A; reflexivity|rewrite B; constructor|lia|]. cbn [semicolon]. rewrite app_nil_r. unfold a_. rewrite E. exact SP. }
    rewrite C, O in Q. exact Q.
  - eapply (C29_nesting (PropStmt.only (select_ (parens n a_))) false).
    + apply only_legal, select_legal; [rewrite A; reflexivity|rewrite B; constructor].
    + rewrite only_ok. reflexivity.
    + exists ([K TOK_SELECT] ++ repeat lpar n), ([Id (la "a")] ++ repeat rpar n). rewrite only_tok, select_tok. unfold a_. rewrite E. split; [rewrite <- !app_assoc; reflexivity|].
      rewrite open_at_app. assert (O : open_at (repeat lpar n) = Z.of_nat n). { clear. induction n as [|n IH]; [reflexivity|]. change (repeat lpar (S n)) with ([lpar] ++ repeat lpar n). rewrite open_at_app, IH. change (open_at [lpar]) with 1%Z. lia. }
      rewrite O. change (open_at [K TOK_SELECT]) with 0%Z. lia.
    + rewrite only_tok, select_tok. cbn [semicolon]. rewrite app_nil_r. unfold a_. rewrite E. exact SP.
Qed.
Example C29_example : exists text, spells ([K TOK_SELECT] ++ repeat lpar 5000 ++ [Id (la "a")] ++ repeat rpar 5000) text.
Proof. exists (write ([K TOK_SELECT] ++ repeat lpar 5000 ++ [Id (la "a")] ++ repeat rpar 5000)). apply write_spells. vm_compute. reflexivity. Qed.
(** SELECT 1 + 1 + ... + 1 with any number of summands; a AND a ... AND a. *)
Example C29_chain_example : forall n, Forall (link_ok BPlus) (repeat (XInt 1) n) /\ Forall (link_ok BAnd) (repeat (XBin BEq a_ (XInt 1)) n) /\ xtok (chain_of BPlus (XInt 1) (repeat (XInt 1) 3)) = [Num 1; K 43; Num 1; K 43; Num 1; K 43; Num 1].
Proof.
  assert (A : link_ok BPlus (XInt 1)) by (repeat split; try (now right); try (cbn; lia); constructor).
  assert (B : link_ok BAnd (XBin BEq a_ (XInt 1))) by (repeat split; try (now left); try (cbn; lia); constructor).
  intro n. split; [|split; [|reflexivity]]; induction n; constructor; auto.
Qed.
(** COMMIT; COMMIT; ... *)
Example C29_list_example : forall n, let l := repeat (STransaction TCommit false, []) (S n) in script_legal l /\ Forall (fun s => q_stack (p_hinted s) <= 196) l /\ q_ok (p_script l) 0 = true.
Proof.
  intros n l. split; [|split].
  - split; [discriminate|]. unfold l. induction (S n) as [|m IH]; cbn [repeat]; constructor; [|exact IH]. split; [reflexivity|constructor].
  - unfold l. induction (S n) as [|m IH]; cbn [repeat]; constructor; [vm_compute; lia|exact IH].
  - unfold l. cbn [p_script q_ok]. induction (S n) as [|m IH]; [reflexivity|]. cbn [repeat map all_ok]. rewrite andb_true_iff. split; [reflexivity|exact IH].
Qed.
