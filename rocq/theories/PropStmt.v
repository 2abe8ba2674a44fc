(** Properties C06, C07, C30, C31, C32, C37, C40, C41.

    Vocabulary.  Stmt.v, Expr.v, Legal.v: the SQL dialect as data types (statement [stmt], expression [ex], ...), the tokens and the objects of
    every piece of it ([p_stmt], [p_script], [xtok], [xobj]) and the conditions on it ([script_legal], [fits]).  [q_tok]: tokens, [q_ok]: the
    semantic checks succeed, [q_params]: number of question marks, [q_stack]: parser stack entries.  [spells] (Spell.v): texts for tokens.
    [accepted_with sql l n] (PropGrammar.v): parse accepts [sql] with the statement objects [l] (addresses and stringLength forgotten) and [n]
    parameters.  [rejects sql] (Script.v): parse reports isValid() == false. *)
From Verif Require Import Script.
From Verif Require Import LexScan LexWords LexTok Part Expr Stmt Legal Paren.
From Coq Require Import ZifyBool ZifyNat ZifyN Permutation.
Local Open Scope nat_scope.

(** ** C07: round trip of statements *)
Theorem C07_round_trip : forall (l : list (stmt * list hint)) (b : bool) text, script_legal l -> q_stack (p_script l) <= 198 -> spells (q_tok (p_script l) ++ semicolon b) text ->
  (q_ok (p_script l) 0 = true -> accepted_with text (script_objs l) (q_params (p_script l))) /\ (q_ok (p_script l) 0 = false -> rejects text).
Proof. intros l b text LG ST SP. split; intro OK; [exact (script_accepted LG ST SP OK)|exact (script_rejected LG ST SP OK)]. Qed.
(** Every script whose names and literals can be written has such a text. *)
Theorem C07_written : forall l b, script_legal l -> q_stack (p_script l) <= 198 -> q_ok (p_script l) 0 = true -> forallb printable (q_tok (p_script l) ++ semicolon b) = true ->
  accepted_with (write (q_tok (p_script l) ++ semicolon b)) (script_objs l) (q_params (p_script l)).
Proof. intros l b LG ST OK PR. apply (script_accepted (b := b) LG ST); [|exact OK]. now apply write_spells. Qed.

(** A script with a join, a subquery, a window function, a set operation, a common table expression and several other statements. *)
Definition c_ (s : string) : ex := XCol (la s).
Definition item_ (e : ex) : item := mkItem e None.
Definition from_ (s : string) : tref := RTable (mkTN None (la s)) None.
Definition plain (items : list item) (from : list tref) (w : option ex) : clause := mkClause None false items from w [] None.
Definition sub_ : query := QSelect (plain [item_ (XFun None (la "MAX") false [c_ "x"] None)] [from_ "v"] (Some (XBin BEq (c_ "x") XParam))) [] LNone [].
Definition win_ : window := mkWin [item_ (c_ "g")] [mkOrd (c_ "h") (Some Descending) None] (Some (FRows, FBetween (BPreceding 3) BCurrent)).
Definition main_ : query :=
  QSet (mkClause (Some 5%Z) true [mkItem (XBin BPlus (c_ "a") (XBin BStar (XInt 2) (XQCol (la "t") (la "b")))) (Some (mkAlias true (la "s"))); item_ (XFun None (la "RANK") false [] (Some (p_window win_)))]
          [ROn (RTable (mkTN (Some (la "sch")) (la "t")) (Some (TAlias (mkAlias false (la "u"))))) JLeft (from_ "w") (XBin BAnd (XBin BEq (c_ "i") (c_ "j")) (XInQ true (c_ "k") (p_query sub_)))]
          (Some (XUn UNot (XBin BLike (c_ "n") (XStr (la "x%"))))) [item_ (c_ "a")] (Some (XBin BGt (XFun None (la "SUM") true [c_ "b"] None) XParam)))
       Union true (OSelect (plain [item_ (XCast (c_ "q") (TDecimal2 10 2)); item_ XNull] [from_ "z"] None)) [mkOrd (c_ "a") None (Some (la "nulls", la "Last"))] (LBoth (XInt 10) XParam) [].
Definition script_ : list (stmt * list hint) :=
  [(SSelect [(la "w", PQuery (QSelect (plain [item_ XStar] [from_ "r"] None) [] LNone []))] (SQuery main_), [mkHint (la "NO_CACHE") []]);
   (SInsert (mkTN None (la "t")) [la "a"; la "b"] [CPlain (XNegInt 5); CCast (XLit (VLDate (la "2020-01-31"))) TDate; CPlain (XLit (VLIntervalText (la "3 days") None))], []);
   (SCreateTable true (mkTN None (la "c")) [EColumn (mkCol (la "id") TInt [CcPrimary; CcNotNull]); EConstraint (TcUnique [la "id"; la "name"]); EColumn (mkCol (la "name") (TVarchar 50) [CcNull])], []);
   (SCopyFrom (mkTN None (la "t")) (la "f.csv") true [OCsv (la "delimiter") (la "|"); OFormat (la "csv")] (Some (XBin BLe (c_ "a") (XFlt (la "1.5")))), [])].
Lemma script_legal_ : script_legal script_.
Proof.
  assert (W : legal (KWindow, p_window win_)) by (constructor; [reflexivity|reflexivity|intros c []]).
  assert (S : legal (KQuery, p_query sub_)) by (constructor; [reflexivity|reflexivity|intros c []]).
  split; [discriminate|]. repeat (apply Forall_cons; [split; [reflexivity|repeat (apply Forall_cons; [assumption|]); apply Forall_nil]|]). apply Forall_nil.
Qed.
Example C07_example : script_legal script_ /\ q_stack (p_script script_) <= 198 /\ q_ok (p_script script_) 0 = true /\ forallb printable (q_tok (p_script script_) ++ semicolon true) = true /\
  q_params (p_script script_) = 3 /\ List.length (q_tok (p_script script_)) = 190 /\ spells [K TOK_SELECT; K 42; K TOK_FROM; Id (la "t"); K 59] (la "select*FROM t;").
Proof.
  split; [exact script_legal_|]. split; [vm_compute; lia|]. split; [vm_compute; reflexivity|]. split; [vm_compute; reflexivity|]. split; [vm_compute; reflexivity|]. split; [vm_compute; reflexivity|].
  change (la "select*FROM t;") with (la "select" ++ la "*" ++ la "FROM" ++ [SP] ++ la "t" ++ la ";" ++ []).
  apply ss_tok. { apply (@tt_keyword (la "SELECT")); [apply keyword_In; vm_compute; reflexivity|vm_compute; reflexivity|reflexivity]. }
  apply ss_tok. { eapply tt_op with (r := 177%Z); [|reflexivity]. vm_compute. auto 20. }
  apply ss_tok. { apply (@tt_keyword (la "FROM")); [apply keyword_In; vm_compute; reflexivity|vm_compute; reflexivity|reflexivity]. }
  apply ss_blank; [split; [discriminate|reflexivity]|reflexivity|].
  apply ss_tok. { apply tt_word; [reflexivity| |reflexivity|].
    - apply not_keyword_ok. vm_compute. reflexivity.
    - intros (bl & x & tail & E & [NE B] & _). destruct bl as [|c bl]; [now apply NE|]. injection E as <- _. discriminate B. }
  apply ss_tok. { eapply tt_op with (r := 177%Z); [|reflexivity]. vm_compute. auto 20. }
  constructor.
Qed.

(** ** One statement without hints *)
Definition only (s : stmt) : list (stmt * list hint) := [(s, [])].
Lemma only_legal s : stmt_legal s -> script_legal (only s).
Proof. intro H. split; [discriminate|]. constructor; [exact H|constructor]. Qed.
Lemma only_tok s : q_tok (p_script (only s)) = q_tok (p_stmt s).
Proof. cbn [p_script only map q_tok semis]. unfold p_hinted. cbn [fst snd]. destruct (hintable s); [|reflexivity]. cbn [seq_ seqp q_tok flat_map p_hints nothing]. apply app_nil_r. Qed.
Lemma only_ok s k : q_ok (p_script (only s)) k = q_ok (p_stmt s) k.
Proof. cbn [p_script only map q_ok all_ok]. unfold p_hinted. cbn [fst snd]. rewrite andb_true_r. destruct (hintable s); [|reflexivity]. cbn [seq_ seqp q_ok all_ok p_hints nothing]. now rewrite !andb_true_r. Qed.
Lemma only_params s : q_params (p_script (only s)) = q_params (p_stmt s).
Proof. cbn [p_script only map q_params total list_sum]. unfold total. cbn [map]. unfold p_hinted. cbn [fst snd]. destruct (hintable s); cbn; unfold total; cbn; lia. Qed.
Lemma only_stack s : q_stack (p_script (only s)) <= Nat.max 4 (2 + q_stack (p_stmt s)).
Proof. cbn [p_script only map q_stack list_stack fold_right]. unfold p_hinted. cbn [fst snd]. destruct (hintable s); [|lia]. cbn [seq_ seqp q_stack map p_hints nothing stack stack_from]. lia. Qed.
Definition finished (s : stmt) : val := with_ [(F_stringLength, VInt 0)] (if hintable s then with_ [(F_hints, VNull)] (q_obj (p_stmt s) 0) else q_obj (p_stmt s) 0).
Lemma only_objs s : script_objs (only s) = [finished s].
Proof. unfold script_objs, finished, only. cbn [p_script map q_obj values numbered_list elems vec]. unfold p_hinted. cbn [fst snd]. destruct (hintable s); reflexivity. Qed.
Theorem stmt_accepted : forall s b text, stmt_legal s -> q_stack (p_stmt s) <= 196 -> spells (q_tok (p_stmt s) ++ semicolon b) text -> q_ok (p_stmt s) 0 = true -> accepted_with text [finished s] (q_params (p_stmt s)).
Proof.
  intros s b text LG ST SP OK. rewrite <- only_objs, <- only_params. apply (script_accepted (b := b) (only_legal s LG)); [pose proof (only_stack s); lia|now rewrite only_tok|now rewrite only_ok].
Qed.
Theorem stmt_rejected : forall s b text, stmt_legal s -> q_stack (p_stmt s) <= 196 -> spells (q_tok (p_stmt s) ++ semicolon b) text -> q_ok (p_stmt s) 0 = false -> rejects text.
Proof.
  intros s b text LG ST SP OK. apply (script_rejected (b := b) (only_legal s LG)); [pose proof (only_stack s); lia|now rewrite only_tok|now rewrite only_ok].
Qed.

(** ** C06: operator precedence and associativity *)
Definition select_ (e : ex) : stmt := SSelect [] (SQuery (QSelect (plain [item_ e] [] None) [] LNone [])).
Lemma select_tok e : q_tok (p_stmt (select_ e)) = K TOK_SELECT :: xtok e.
Proof. cbn. now rewrite !app_nil_r. Qed.
Lemma select_params e : q_params (p_stmt (select_ e)) = xparams e.
Proof. cbn. unfold total. cbn. unfold total. cbn. unfold total. cbn. unfold total. cbn. unfold total. cbn. unfold total. cbn. lia. Qed.
Lemma select_ok_ e k : q_ok (p_stmt (select_ e)) k = true. Proof. reflexivity. Qed.
Lemma select_legal e : fits e = true -> Forall legal (xparts e) -> stmt_legal (select_ e).
Proof. intros F P. split; [cbv [stmt_ok select_ select_ok query_ok clause_ok plain c_items some forallb item_ok item_ i_ex c_from c_where c_group c_having if_some Legal.tail_ok lim_ok lim_exs]; now rewrite F|]. cbn. unfold item_parts. cbn. now rewrite !app_nil_r. Qed.
Lemma select_stack e : q_stack (p_stmt (select_ e)) <= 10 + xstack e.
Proof. cbn [p_stmt select_ p_select p_query p_clause seq_ seqp q_stack map stack stack_from p_withs nothing plist list_stack fold_right p_item item_ i_ex i_alias p_opt_alias pex plain c_items p_top c_top p_distinct c_distinct p_from c_from p_where c_where p_group c_group c_having p_order p_limit p_locks kw token_part]. lia. Qed.
(** The full statement, with the precedence table of bison_parser.y:318-338, is false: the unary minus (declared strongest) is weaker than
    multiplication, see C06_refuted.  With the strengths actually used ([fits], Expr.v) it holds: an expression tree [e], written with parentheses
    around the operands that need them ([wrap], Paren.v), is parsed to exactly [e]; the parentheses are left out where not needed. *)
Theorem C06_precedence_partial : forall e b text, shape e = true -> Forall legal (xparts e) -> xstack (wrap e) <= 186 -> spells ((K TOK_SELECT :: xtok (wrap e)) ++ semicolon b) text ->
  (exists s, accepted_with text [s] (xparams e) /\ fget F_selectList s = vec [xobj e 0]) /\ (fits e = true -> wrap e = e).
Proof.
  intros e b text SH PA ST SP. split; [|apply wrap_id]. exists (finished (select_ (wrap e))). split; [|unfold finished; cbn; now rewrite wrap_obj].
  rewrite <- (wrap_params e), <- select_params. apply (stmt_accepted _ b).
  - apply select_legal; [now apply wrap_fits|]. now rewrite wrap_parts.
  - pose proof (select_stack (wrap e)). lia.
  - now rewrite select_tok.
  - reflexivity.
Qed.
(** Expressions without parentheses are parsed according to the strengths. *)
Corollary C06_unparenthesised : forall e b text, fits e = true -> Forall legal (xparts e) -> xstack e <= 186 -> spells ((K TOK_SELECT :: xtok e) ++ semicolon b) text ->
  exists s, accepted_with text [s] (xparams e) /\ fget F_selectList s = vec [xobj e 0].
Proof.
  intros e b text F PA ST SP. exists (finished (select_ e)). split; [|reflexivity]. rewrite <- select_params. apply (stmt_accepted _ b); [now apply select_legal|pose proof (select_stack e); lia|now rewrite select_tok|reflexivity].
Qed.
Definition a_ := c_ "a". Definition b_ := c_ "b". Definition d_ := c_ "d".
Example C06_example : let e := XBin BStar (XBin BPlus a_ b_) (XBin BMinus a_ (XBin BMinus b_ (XUn UNeg d_))) in
  shape e = true /\ wrap e = XBin BStar (XParen (XBin BPlus a_ b_)) (XParen (XBin BMinus a_ (XParen (XBin BMinus b_ (XUn UNeg d_))))) /\
  (let e := XBin BOr (XBin BAnd a_ (XUn UNot (XBin BEq b_ (XBin BLt a_ (XBin BPlus b_ (XBin BStar d_ (XBin BCaret a_ b_))))))) (XUn UIsNull d_) in fits e = true /\ wrap e = e).
Proof. repeat split. Qed.
(** Two successive operators of one level associate to the left, of different levels bind by strength. *)
Theorem C06_associativity : forall o o' b text, In o [BMinus; BPlus; BSlash; BStar; BPercent; BCaret; BConcat; BAnd; BOr] -> blevel o = blevel o' ->
  spells ([K TOK_SELECT; Id (la "a")] ++ btok o ++ [Id (la "b")] ++ btok o' ++ [Id (la "d")] ++ semicolon b) text ->
  exists s, accepted_with text [s] 0 /\ fget F_selectList s = vec [binop (binop (xobj a_ 0) (bobj o) (xobj b_ 0)) (bobj o') (xobj d_ 0)].
Proof.
  intros o o' b text I L SP. apply (C06_unparenthesised (XBin o' (XBin o a_ b_) d_) b); [| |destruct o, o'; vm_compute; lia|].
  - cbn [In] in I. destruct o'; cbn [In] in I; repeat (destruct I as [<-|I]; [cbn in L; try discriminate L; reflexivity|]); destruct I.
  - constructor.
  - cbn [xtok app] in *. rewrite <- !app_assoc. cbn [app]. exact SP.
Qed.
(** Results of concrete parses. *)
Lemma evaluated sql l n : (exists e, parse [] sql fresh_env = PRet 0 e /\ e_valid e = true /\ map erase (e_stmts e) = l /\ List.length (e_params e) = n) -> accepted_with sql l n.
Proof. intros (e & E & V & M & N) buf0. exists e. split; [|auto]. unfold parse in *. rewrite lex_all_buf. exact E. Qed.
Lemma evaluated_invalid sql : (exists r e, parse [] sql fresh_env = PRet r e /\ e_valid e = false) -> rejects sql.
Proof. intros (r & e & E & V) buf0 r' e' E'. unfold parse in *. rewrite lex_all_buf in E'. rewrite E in E'. injection E' as _ <-. exact V. Qed.
Ltac evaluated x := exists x; split; [apply evaluated; eexists; split; [vm_compute; reflexivity|split; [vm_compute; reflexivity|split; vm_compute; reflexivity]]|split; [vm_compute; reflexivity|vm_compute; discriminate]].
(** The declared precedence of the unary minus is not used. *)
Theorem C06_refuted : exists s, accepted_with (la "SELECT -a * b") [s] 0 /\ fget F_selectList s = vec [xobj (XUn UNeg (XBin BStar a_ b_)) 0] /\ fget F_selectList s <> vec [xobj (XBin BStar (XUn UNeg a_) b_) 0].
Proof.
  evaluated (finished (select_ (XUn UNeg (XBin BStar a_ b_)))).
Qed.

(** ** C41: NOT and predicates *)
(** NOT x = y etc. is NOT (x = y) for all comparisons, LIKE and IS NULL. *)
Theorem C41_not_comparison_partial : forall e b text, match e with XBin o _ _ => In o [BEq; BEqEq; BNe; BLt; BGt; BLe; BGe; BLike; BILike; BNotLike] | XUn o _ => In o [UIsNull; UISNULL; UIsNotNull] | _ => False end ->
  fits e = true -> 4 <= xleft e -> Forall legal (xparts e) -> xstack e <= 180 -> spells ([K TOK_SELECT; K TOK_NOT] ++ xtok e ++ semicolon b) text ->
  exists s, accepted_with text [s] (xparams e) /\ fget F_selectList s = vec [unop kOpNot (xobj e 0)].
Proof.
  intros e b text KD F L PA ST SP. apply (C06_unparenthesised (XUn UNot e) b).
  - cbn [fits]. rewrite F. replace (4 <=? xleft e) with true by lia. destruct e; try (exfalso; exact KD); try reflexivity. cbn [operand]. match goal with o : bop |- _ => destruct o end; try reflexivity; cbn [In] in KD; repeat (destruct KD as [KD|KD]; [discriminate KD|]); destruct KD.
  - exact PA.
  - cbn [xstack stack stack_from]. lia.
  - cbn [xtok app]. exact SP.
Qed.
Example C41_example : let e := XBin BEq (XBin BPlus a_ b_) (XBin BLt a_ d_) in fits e = true /\ 4 <= xleft e /\ xparts e = [] /\ xtok (XUn UNot e) = [K TOK_NOT] ++ xtok e.
Proof. repeat split. vm_compute. lia. Qed.
(** IN and BETWEEN: NOT is applied to the left operand only. *)
Theorem C41_refuted : (exists s, accepted_with (la "SELECT NOT a IN (1)") [s] 0 /\ fget F_selectList s = vec [xobj (XIn false (XUn UNot a_) [XInt 1]) 0] /\ fget F_selectList s <> vec [unop kOpNot (xobj (XIn false a_ [XInt 1]) 0)]) /\
  (exists s, accepted_with (la "SELECT NOT a BETWEEN 1 AND 2") [s] 0 /\ fget F_selectList s = vec [xobj (XBetween (XUn UNot a_) (XInt 1) (XInt 2)) 0] /\ fget F_selectList s <> vec [unop kOpNot (xobj (XBetween a_ (XInt 1) (XInt 2)) 0)]) /\
  rejects (la "SELECT NOT a NOT IN (1)").
Proof.
  split; [|split].
  - evaluated (finished (select_ (XIn false (XUn UNot a_) [XInt 1]))).
  - evaluated (finished (select_ (XBetween (XUn UNot a_) (XInt 1) (XInt 2)))).
  - apply evaluated_invalid. eexists _, _. split; vm_compute; reflexivity.
Qed.
(** In general: in NOT x IN (...) and NOT x BETWEEN ... the NOT belongs to x. *)
Theorem C41_not_in : forall x l b text, fits x = true -> operand x = true -> 4 <= xleft x -> forallb fits l = true -> l <> [] -> Forall legal (xparts x) -> Forall legal (flat_map xparts l) -> xstack (XIn false (XUn UNot x) l) <= 186 ->
  spells ([K TOK_SELECT; K TOK_NOT] ++ xtok x ++ [K TOK_IN; lpar] ++ commas (map xtok l) ++ [rpar] ++ semicolon b) text ->
  exists s, accepted_with text [s] (xparams x + list_sum (map xparams l)) /\ fget F_selectList s = vec [in_list (unop kOpNot (xobj x 0)) (vec (numbered_list xobj xparams l (xparams x)))].
Proof.
  intros x l b text F O L FL NE P1 P2 ST SP. apply (C06_unparenthesised (XIn false (XUn UNot x) l) b).
  - cbn [fits operand implb]. rewrite F, O, FL. replace (4 <=? xleft x) with true by lia. destruct l; [now elim NE|reflexivity].
  - cbn [xparts]. apply Forall_app. auto.
  - exact ST.
  - cbn [xtok not_tok app]. rewrite <- !app_assoc. cbn [app]. rewrite <- !app_assoc. cbn [app]. cbn [app] in SP. exact SP.
Qed.
