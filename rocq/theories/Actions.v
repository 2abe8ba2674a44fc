(** The semantic actions of all 357 productions of /repo/src/parser/bison_parser.y (the same code appears in the action
    switch of bison_parser.cpp:3170-5630), and the Expr factory functions they call (/repo/src/sql/Expr.cpp). *)
From Verif Require Import Base LexModel Ast Heap.
Local Open Scope N_scope.

(** ** Expr factories *)
(** Expr.cpp:83-86 *)
Definition mkExpr (t : val) : M val := new CExpr (init_Expr t).
(** Expr.cpp:88-94 *)
Definition makeOpUnary (op e : val) : M val :=
  v <- mkExpr kExprOperator ;; puts [(F_opType, op); (F_expr, e); (F_expr2, VNull)] v.
(** Expr.cpp:96-102 *)
Definition makeOpBinary (e1 op e2 : val) : M val :=
  v <- mkExpr kExprOperator ;; puts [(F_opType, op); (F_expr, e1); (F_expr2, e2)] v.
(** Expr.cpp:104-112 *)
Definition makeBetween (e l r : val) : M val :=
  v <- mkExpr kExprOperator ;; v <- puts [(F_expr, e); (F_opType, kOpBetween)] v ;;
  w <- vnew ;; w <- vpush l w ;; w <- vpush r w ;; put F_exprList w v.
(** Expr.cpp:114-122 *)
Definition makeCaseList (el : val) : M val :=
  v <- mkExpr kExprOperator ;; v <- put F_opType kOpNone v ;;
  w <- vnew ;; w <- vpush el w ;; put F_exprList w v.
(** Expr.cpp:124-130 *)
Definition makeCaseListElement (w t : val) : M val :=
  v <- mkExpr kExprOperator ;; puts [(F_opType, kOpCaseListElement); (F_expr, w); (F_expr2, t)] v.
(** Expr.cpp:132-135 *)
Definition caseListAppend (cl el : val) : M val :=
  w <- getf F_exprList cl ;; w <- vpush el w ;; put F_exprList w cl.
(** Expr.cpp:137-146 *)
Definition makeCase (e cl els : val) : M val :=
  v <- mkExpr kExprOperator ;; v <- puts [(F_opType, kOpCase); (F_expr, e); (F_expr2, els)] v ;;
  w <- getf F_exprList cl ;; v <- put F_exprList w v ;;
  cl <- put F_exprList VNull cl ;; del cl ;; ret v.
(** Expr.cpp:148-152 *)
Definition makeLiteralInt (z : Z) : M val := v <- mkExpr kExprLiteralInt ;; put F_ival (VInt z) v.
(** Expr.cpp:154-158 *)
Definition makeLiteralFloat (x : val) : M val := v <- mkExpr kExprLiteralFloat ;; put F_fval x v.
(** Expr.cpp:160-164 *)
Definition makeLiteralString (s : val) : M val := v <- mkExpr kExprLiteralString ;; put F_name s v.
(** Expr.cpp:166-171 *)
Definition makeLiteralBool (b : bool) : M val :=
  v <- mkExpr kExprLiteralInt ;; puts [(F_ival, VInt (if b then 1 else 0)%Z); (F_isBoolLiteral, VBool true)] v.
(** Expr.cpp:173-176 *)
Definition makeNullLiteral : M val := mkExpr kExprLiteralNull.
(** Expr.cpp:178-182 *)
Definition makeDateLiteral (s : val) : M val := v <- mkExpr kExprLiteralDate ;; put F_name s v.
(** Expr.cpp:184-189 *)
Definition makeIntervalLiteral (z : Z) (u : val) : M val :=
  v <- mkExpr kExprLiteralInterval ;; puts [(F_ival, VInt z); (F_datetimeField, u)] v.
(** Expr.cpp:191-195 *)
Definition makeColumnRef (name : val) : M val := v <- mkExpr kExprColumnRef ;; put F_name name v.
(** Expr.cpp:197-202 *)
Definition makeColumnRef2 (table name : val) : M val :=
  v <- mkExpr kExprColumnRef ;; puts [(F_name, name); (F_table, table)] v.
(** Expr.cpp:204-207 *)
Definition makeStar : M val := mkExpr kExprStar.
(** Expr.cpp:209-213 *)
Definition makeStar1 (table : val) : M val := v <- mkExpr kExprStar ;; put F_table table v.
(** Expr.cpp:215-222 *)
Definition makeFunctionRef (name l distinct w : val) : M val :=
  v <- mkExpr kExprFunctionRef ;;
  puts [(F_name, name); (F_exprList, l); (F_distinct, distinct); (F_windowDescription, w)] v.
(** Expr.cpp:224-232 *)
Definition makeFunctionRef2 (name schema l distinct w : val) : M val :=
  v <- mkExpr kExprFunctionRef ;;
  puts [(F_name, name); (F_schema, schema); (F_exprList, l); (F_distinct, distinct); (F_windowDescription, w)] v.
(** Expr.cpp:234-238 *)
Definition makeArray (l : val) : M val := v <- mkExpr kExprArray ;; put F_exprList l v.
(** Expr.cpp:240-245 *)
Definition makeArrayIndex (e i : val) : M val := v <- mkExpr kExprArrayIndex ;; puts [(F_expr, e); (F_ival, i)] v.
(** Expr.cpp:247-251 *)
Definition makeParameter (id : Z) : M val := v <- mkExpr kExprParameter ;; put F_ival (VInt id) v.
(** Expr.cpp:253-257 *)
Definition makeSelect (s : val) : M val := v <- mkExpr kExprSelect ;; put F_select s v.
(** Expr.cpp:259-264 *)
Definition makeExists (s : val) : M val := v <- mkExpr kExprOperator ;; puts [(F_opType, kOpExists); (F_select, s)] v.
(** Expr.cpp:266-273 *)
Definition makeInList (e l : val) : M val :=
  v <- mkExpr kExprOperator ;; puts [(F_opType, kOpIn); (F_expr, e); (F_exprList, l)] v.
(** Expr.cpp:275-282 *)
Definition makeInSelect (e s : val) : M val :=
  v <- mkExpr kExprOperator ;; puts [(F_opType, kOpIn); (F_expr, e); (F_select, s)] v.
(** Expr.cpp:284-289 *)
Definition makeExtract (f e : val) : M val := v <- mkExpr kExprExtract ;; puts [(F_datetimeField, f); (F_expr, e)] v.
(** Expr.cpp:291-296 *)
Definition makeCast (e t : val) : M val := v <- mkExpr kExprCast ;; puts [(F_columnType, t); (F_expr, e)] v.

(** ** Other helpers *)
(** std::unordered_set<ConstraintType>::insert *)
Definition set_insert (x v : val) : M val :=
  match v with
  | VVec a l => check a ;; ret (if existsb (enum_is x) l then VVec a l else VVec a (l ++ [x]))
  | VNull => fail UNullDeref
  | VUninit => fail UUninit
  | _ => fail UBadValue
  end.
(** ColumnConstraints::ColumnConstraints, CreateStatement.cpp:58-59 *)
Definition newColumnConstraints : M val :=
  s <- vnew ;; r <- vnew ;; new CColumnConstraints [(F_constraints, s); (F_references, r)].
(** [v->constraints->insert(x)] *)
Definition add_constraint (x v : val) : M val :=
  c <- getf F_constraints v ;; c <- set_insert x c ;; put F_constraints c v.
(** [v->references->emplace_back(x)] *)
Definition add_reference (x v : val) : M val :=
  c <- getf F_references v ;; c <- vpush x c ;; put F_references c v.
(** ColumnDefinition::trySetNullableExplicit, CreateStatement.cpp:77-86 *)
Definition trySetNullableExplicit (v : val) : M (bool * val) :=
  cc <- getf F_column_constraints v ;; l <- velems cc ;;
  let count x := existsb (enum_is x) l in
  if count NotNull || count PrimaryKey then
    if count CNull then ret (false, v) else (v <- put F_nullable (VBool false) v ;; ret (true, v))
  else ret (true, v).
(** The loop of CreateStatement::setColumnDefsAndConstraints, CreateStatement.cpp:143-149 (dynamic_cast by class). *)
Fixpoint distribute (l : list val) (cols cons : val) : M (val * val) :=
  match l with
  | [] => ret (cols, cons)
  | x :: l' =>
    deref x ;;
    match x with
    | VObj _ CColumnDefinition _ => cols <- vpush x cols ;; distribute l' cols cons
    | VObj _ CTableConstraint _ | VObj _ CForeignKeyConstraint _ => cons <- vpush x cons ;; distribute l' cols cons
    | _ => distribute l' cols cons
    end
  end.
(** CreateStatement.cpp:139-150 *)
Definition setColumnDefsAndConstraints (elems v : val) : M val :=
  cols <- vnew ;; v <- put F_columns cols v ;; cons <- vnew ;; v <- put F_tableConstraints cons v ;;
  l <- velems elems ;; p <- distribute l cols cons ;;
  v <- put F_columns (fst p) v ;; put F_tableConstraints (snd p) v.
(** CsvOptions::accept_csv_option, statements.cpp:162-185: [None] = false. *)
Definition accept_csv_option (opt v : val) : M (option val) :=
  k <- getf F_first opt ;; k <- as_enum k ;;
  let f := if enum_is k CsvDelimiter then F_delimiter else if enum_is k CsvNull then F_null else F_quote in
  cur <- getf f v ;; n <- is_null cur ;;
  if n then (s <- getf F_second opt ;; v <- put f s v ;; ret (Some v)) else ret None.
(** bison_parser.y:474-482 = 595-603 = 609-617: move encoding and csv_options out of the options, delete them. *)
Definition move_options (opts v : val) : M val :=
  enc <- getf F_encoding opts ;; n <- is_null enc ;;
  p <- (if n then ret (v, opts) else (v <- put F_encoding enc v ;; o <- put F_encoding VNull opts ;; ret (v, o))) ;;
  csv <- getf F_csv_options (snd p) ;; n <- is_null csv ;;
  q <- (if n then ret p
        else (v <- put F_csv_options csv (fst p) ;; o <- put F_csv_options VNull (snd p) ;; ret (v, o))) ;;
  del (snd q) ;; ret (fst q).
(** [$$->setOperations->push_back(op)] creating the vector if necessary, then the given assignments to
    [$$->setOperations->back()]: bison_parser.y:910-916, 925-929, 951-957. *)
Fixpoint vback_puts (l : list (fld * val)) (w : val) : M val :=
  match l with [] => ret w | (f, x) :: l' => w <- vback_put f x w ;; vback_puts l' w end.
Definition add_set_operation (op : val) (l : list (fld * val)) (v : val) : M val :=
  so <- getf F_setOperations v ;; n <- is_null so ;;
  so <- (if n then vnew else ret so) ;;
  so <- vpush op so ;; so <- vback_puts l so ;; put F_setOperations so v.
(** [$$ = new std::vector<T>(); $$->push_back($1);] *)
Definition vec1 (x : val) : M val := w <- vnew ;; vpush x w.
(** [new TableRef(kTableName)] with schema and name from a TableName. *)
Definition table_ref_of (tn : val) : M val :=
  s <- getf F_schema tn ;; n <- getf F_name tn ;;
  v <- new CTableRef (init_TableRef kTableName) ;; puts [(F_schema, s); (F_name, n)] v.

(** Assignment through a pointer held elsewhere (yyloc.param_list): the member [f] of the object at address [a]
    inside the tree [v]. *)
Fixpoint poke (a : N) (f : fld) (x : val) (v : val) : val :=
  match v with
  | VObj b c fs =>
    let fs' := (fix go (fs : list (fld * val)) := match fs with [] => [] | (g, y) :: r => (g, poke a f x y) :: go r end) fs in
    VObj b c (if N.eqb a b then update f x fs' else fs')
  | VVec b l => VVec b (map (poke a f x) l)
  | VRec fs => VRec ((fix go (fs : list (fld * val)) := match fs with [] => [] | (g, y) :: r => (g, poke a f x y) :: go r end) fs)
  | _ => v
  end.
(** std::sort by ival in SQLParserResult::addParameter (SQLParserResult.cpp:75-78), as insertion sort; with two or more
    elements the comparison dereferences the parameters.  (std::sort leaves the order of equal keys open; the keys are
    distinct unless a result object is reused.) *)
Fixpoint insert_param (p : N * Z) (l : list (N * Z)) : list (N * Z) :=
  match l with
  | [] => [p]
  | q :: l' => if (snd p <? snd q)%Z then p :: q :: l' else q :: insert_param p l'
  end.
Definition addParameter (a : N) (z : Z) : M unit := fun e =>
  match e_params e with
  | [] => ROk tt (set_params [(a, z)] e)
  | l => if forallb (fun p => memN (fst p) (e_live e)) ((a, z) :: l)
         then ROk tt (set_params (insert_param (a, z) l) e) else RUB UUseAfterFree
  end.
(** bison_parser.y:349-357 *)
Fixpoint number_params (l : list N) (id : Z) : M unit :=
  match l with
  | [] => ret tt
  | a :: l' =>
    check a ;;
    (fun e => ROk tt (set_stmts (map (poke a F_ival (VInt id)) (e_stmts e)) e)) ;;
    addParameter a id ;;
    number_params l' (id + 1)%Z
  end.
(** [$n->stringLength = yylloc.string_length; yylloc.string_length = 0;] bison_parser.y:363-364, 369-370 *)
Definition take_string_length (v : val) : M val := fun e =>
  let p := e_lpos e in
  put F_stringLength (VInt (slen p)) v
      (set_lpos (mkPos (fl p) (fc p) (ll p) (lc p) (total p) 0) e).

(** Interval units, bison_parser.y:1286-1301. *)
Definition unit_of (u : bytes) : option val :=
  if casecmp u (la "second") || casecmp u (la "seconds") then Some kDatetimeSecond
  else if casecmp u (la "minute") || casecmp u (la "minutes") then Some kDatetimeMinute
  else if casecmp u (la "hour") || casecmp u (la "hours") then Some kDatetimeHour
  else if casecmp u (la "day") || casecmp u (la "days") then Some kDatetimeDay
  else if casecmp u (la "month") || casecmp u (la "months") then Some kDatetimeMonth
  else if casecmp u (la "year") || casecmp u (la "years") then Some kDatetimeYear
  else None.

Definition err_file_type := la "File type is unknown.".
Definition err_type_once := la "File type must only be provided once.".
Definition err_csv_only := la "CSV options (DELIMITER, NULL, QUOTE) are only allowed for CSV files.".
Definition err_enc_once := la "Encoding type must only be provided once.".
Definition err_csv_once := la "CSV options (DELIMITER, NULL, QUOTE) cannot be provided more than once.".
Definition err_csv_unknown := la "Unknown CSV option.".
Definition err_nullability := la "Conflicting nullability constraints for ".
Definition err_nulls := la "Expected NULLS FIRST or NULLS LAST ordering.".
Definition err_param_literal := la "Parameter ? is not a valid literal.".
Definition err_date := la "Found incorrect date format. Expected format: YYYY-MM-DD".
Definition err_interval1 := la "Found incorrect interval format. Expected format: INTEGER".
Definition err_interval2 := la "Found incorrect interval format. Expected format: INTEGER INTERVAL_QUALIIFIER".
Definition err_interval_unit := la "Interval qualifier is unknown.".

(** ** The actions
    [act r args]: the action of production [r] (numbering of bison_parser.cpp / GrammarDef.v) on the values
    [$1; $2; ...].  The result is [$$]. *)
Definition act (r : N) (args : list val) : M val :=
  let d (i : nat) := nth (Nat.pred i) args VUninit in
  match r with
  (* input: statement_list opt_semicolon; bison_parser.y:343-359 *)
  | 2 =>
    l <- velems (d 1%nat) ;;
    (fun e => ROk tt (set_stmts (e_stmts e ++ l) e)) ;;
    (fun e => number_params (e_plist e) 0%Z e) ;;
    del_block (d 1%nat) ;; ret VUninit
  (* statement_list; 362-373 *)
  | 3 => s <- take_string_length (d 1%nat) ;; vec1 s
  | 4 => s <- take_string_length (d 3%nat) ;; vpush s (d 1%nat)
  (* statement; 375-385 *)
  | 5 | 6 => put F_hints (d 2%nat) (d 1%nat)
  | 7 | 8 | 9 => ret (d 1%nat)
  (* preparable_statement; 387-396 *)
  | 10 | 11 | 12 | 13 | 14 | 15 | 16 | 17 | 18 | 19 => ret (d 1%nat)
  (* opt_hints, hint_list, hint; 402-422 *)
  | 20 => ret (d 4%nat)
  | 21 => ret VNull
  | 22 => vec1 (d 1%nat)
  | 23 => vpush (d 3%nat) (d 1%nat)
  | 24 => v <- mkExpr kExprHint ;; put F_name (d 1%nat) v
  | 25 => v <- mkExpr kExprHint ;; puts [(F_name, d 1%nat); (F_exprList, d 3%nat)] v
  (* transaction_statement; 428-430 *)
  | 26 => new CTransactionStatement (init_TransactionStatement kBeginTransaction)
  | 27 => new CTransactionStatement (init_TransactionStatement kRollbackTransaction)
  | 28 => new CTransactionStatement (init_TransactionStatement kCommitTransaction)
  (* opt_transaction_keyword (no type); 432 *)
  | 29 | 30 => ret VUninit
  (* prepare_statement; 438-442 *)
  | 31 => v <- new CPrepareStatement init_PrepareStatement ;; puts [(F_name, d 2%nat); (F_query, d 4%nat)] v
  | 32 => ret (d 1%nat)
  (* execute_statement; 446-454 *)
  | 33 => v <- new CExecuteStatement init_ExecuteStatement ;; put F_name (d 2%nat) v
  | 34 => v <- new CExecuteStatement init_ExecuteStatement ;; puts [(F_name, d 2%nat); (F_parameters, d 4%nat)] v
  (* import_statement; 462-483 *)
  | 35 =>
    t <- as_enum (d 3%nat) ;; v <- new CImportStatement (init_ImportStatement t) ;;
    s <- getf F_schema (d 7%nat) ;; n <- getf F_name (d 7%nat) ;;
    puts [(F_filePath, d 5%nat); (F_schema, s); (F_tableName, n)] v
  | 36 =>
    t <- getf F_format (d 5%nat) ;; v <- new CImportStatement (init_ImportStatement t) ;;
    s <- getf F_schema (d 2%nat) ;; n <- getf F_name (d 2%nat) ;;
    v <- puts [(F_filePath, d 4%nat); (F_schema, s); (F_tableName, n); (F_whereClause, d 6%nat)] v ;;
    move_options (d 5%nat) v
  (* file_type; 485-498 *)
  | 37 =>
    s <- cstr (d 1%nat) ;;
    if casecmp s (la "csv") then (free_ (d 1%nat) ;; ret kImportCSV)
    else if casecmp s (la "tbl") then (free_ (d 1%nat) ;; ret kImportTbl)
    else if casecmp s (la "binary") || casecmp s (la "bin") then (free_ (d 1%nat) ;; ret kImportBinary)
    else (free_ (d 1%nat) ;; yyerror err_file_type ;; YYERROR)
  | 38 => ret (d 1%nat)
  (* opt_import_export_options; 502-504 *)
  | 39 => ret (d 3%nat)
  | 40 => ret (d 2%nat)
  | 41 => new CImportExportOptions init_ImportExportOptions
  (* import_export_options; 506-568 *)
  | 42 =>
    f <- getf F_format (d 1%nat) ;;
    if negb (enum_is f kImportAuto) then (del (d 1%nat) ;; yyerror err_type_once ;; YYERROR)
    else
      c <- getf F_csv_options (d 1%nat) ;; n <- is_null c ;; t <- as_enum (d 4%nat) ;;
      if negb n && negb (enum_is t kImportCSV) && negb (enum_is t kImportAuto)
      then (del (d 1%nat) ;; yyerror err_csv_only ;; YYERROR)
      else put F_format t (d 1%nat)
  | 43 =>
    v <- new CImportExportOptions init_ImportExportOptions ;; t <- as_enum (d 2%nat) ;; put F_format t v
  | 44 =>
    e <- getf F_encoding (d 1%nat) ;; n <- is_null e ;;
    if negb n then (del (d 1%nat) ;; free_ (d 4%nat) ;; yyerror err_enc_once ;; YYERROR)
    else put F_encoding (d 4%nat) (d 1%nat)
  | 45 => v <- new CImportExportOptions init_ImportExportOptions ;; put F_encoding (d 2%nat) v
  | 46 =>
    f <- getf F_format (d 1%nat) ;;
    if negb (enum_is f kImportAuto) && negb (enum_is f kImportCSV) then
      del (d 1%nat) ;; s <- getf F_second (d 3%nat) ;; free_ s ;; del_block (d 3%nat) ;; yyerror err_csv_only ;; YYERROR
    else
      c <- getf F_csv_options (d 1%nat) ;; n <- is_null c ;;
      c <- (if n then new CCsvOptions init_CsvOptions else ret c) ;;
      v <- put F_csv_options c (d 1%nat) ;;
      a <- accept_csv_option (d 3%nat) c ;;
      match a with
      | None => s <- getf F_second (d 3%nat) ;; free_ s ;; del_block (d 3%nat) ;; del v ;; yyerror err_csv_once ;; YYERROR
      | Some c' => v <- put F_csv_options c' v ;; del_block (d 3%nat) ;; ret v
      end
  | 47 =>
    v <- new CImportExportOptions init_ImportExportOptions ;; c <- new CCsvOptions init_CsvOptions ;;
    v <- put F_csv_options c v ;; a <- accept_csv_option (d 1%nat) c ;;
    v <- put F_csv_options (match a with Some c' => c' | None => c end) v ;;
    del_block (d 1%nat) ;; ret v
  (* csv_option; 570-583 *)
  | 48 =>
    s <- cstr (d 1%nat) ;;
    if casecmp s (la "DELIMITER") then
      (p <- new CPairCsv [(F_first, CsvDelimiter); (F_second, d 2%nat)] ;; free_ (d 1%nat) ;; ret p)
    else if casecmp s (la "QUOTE") then
      (p <- new CPairCsv [(F_first, CsvQuote); (F_second, d 2%nat)] ;; free_ (d 1%nat) ;; ret p)
    else (free_ (d 1%nat) ;; free_ (d 2%nat) ;; yyerror err_csv_unknown ;; YYERROR)
  | 49 => new CPairCsv [(F_first, CsvNull); (F_second, d 2%nat)]
  (* export_statement; 590-618 *)
  | 50 =>
    t <- getf F_format (d 5%nat) ;; v <- new CExportStatement (init_ExportStatement t) ;;
    s <- getf F_schema (d 2%nat) ;; n <- getf F_name (d 2%nat) ;;
    v <- puts [(F_filePath, d 4%nat); (F_schema, s); (F_tableName, n)] v ;;
    move_options (d 5%nat) v
  | 51 =>
    t <- getf F_format (d 5%nat) ;; v <- new CExportStatement (init_ExportStatement t) ;;
    v <- puts [(F_filePath, d 4%nat); (F_select, d 2%nat)] v ;;
    move_options (d 5%nat) v
  (* show_statement; 625-635 *)
  | 52 => new CShowStatement (init_ShowStatement kShowTables)
  | 53 =>
    v <- new CShowStatement (init_ShowStatement kShowColumns) ;;
    s <- getf F_schema (d 3%nat) ;; n <- getf F_name (d 3%nat) ;; puts [(F_schema, s); (F_name, n)] v
  | 54 =>
    v <- new CShowStatement (init_ShowStatement kShowColumns) ;;
    s <- getf F_schema (d 2%nat) ;; n <- getf F_name (d 2%nat) ;; puts [(F_schema, s); (F_name, n)] v
  (* create_statement; 642-688 *)
  | 55 =>
    v <- new CCreateStatement (init_CreateStatement kCreateTableFromTbl) ;;
    s <- getf F_schema (d 4%nat) ;; n <- getf F_name (d 4%nat) ;;
    v <- puts [(F_ifNotExists, d 3%nat); (F_schema, s); (F_tableName, n)] v ;;
    t <- cstr (d 6%nat) ;;
    if negb (casecmp t (la "tbl")) then (free_ (d 6%nat) ;; yyerror err_file_type ;; YYERROR)
    else (free_ (d 6%nat) ;; put F_filePath (d 8%nat) v)
  | 56 =>
    v <- new CCreateStatement (init_CreateStatement kCreateTable) ;;
    s <- getf F_schema (d 4%nat) ;; n <- getf F_name (d 4%nat) ;;
    v <- puts [(F_ifNotExists, d 3%nat); (F_schema, s); (F_tableName, n)] v ;;
    v <- setColumnDefsAndConstraints (d 6%nat) v ;;
    del_block (d 6%nat) ;;
    m <- (fun e => ROk (e_msg e) e) ;; ok <- is_null m ;;
    if negb ok then (del v ;; YYERROR) else ret v
  | 57 =>
    v <- new CCreateStatement (init_CreateStatement kCreateTable) ;;
    s <- getf F_schema (d 4%nat) ;; n <- getf F_name (d 4%nat) ;;
    puts [(F_ifNotExists, d 3%nat); (F_schema, s); (F_tableName, n); (F_select, d 6%nat)] v
  | 58 =>
    v <- new CCreateStatement (init_CreateStatement kCreateIndex) ;;
    n <- getf F_name (d 6%nat) ;;
    puts [(F_indexName, d 4%nat); (F_ifNotExists, d 3%nat); (F_tableName, n); (F_indexColumns, d 8%nat)] v
  | 59 =>
    v <- new CCreateStatement (init_CreateStatement kCreateView) ;;
    s <- getf F_schema (d 4%nat) ;; n <- getf F_name (d 4%nat) ;;
    puts [(F_ifNotExists, d 3%nat); (F_schema, s); (F_tableName, n); (F_viewColumns, d 5%nat); (F_select, d 7%nat)] v
  (* opt_not_exists; 690-691 *)
  | 60 => ret (VBool true)
  | 61 => ret (VBool false)
  (* table_elem_commalist, table_elem; 693-703 *)
  | 62 => vec1 (d 1%nat)
  | 63 => vpush (d 3%nat) (d 1%nat)
  | 64 | 65 => ret (d 1%nat)
  (* column_def; 705-711 *)
  | 66 =>
    c <- getf F_constraints (d 3%nat) ;; r <- getf F_references (d 3%nat) ;;
    v <- new CColumnDefinition (init_ColumnDefinition (d 1%nat) (d 2%nat) c r) ;;
    p <- trySetNullableExplicit v ;;
    (if fst p then ret tt else (s <- cstr (d 1%nat) ;; yyerror (err_nullability ++ s)%list)) ;;
    del (d 3%nat) ;; ret (snd p)
  (* column_type; 713-733 *)
  | 67 => ret (mk_column_type DT_BIGINT 0 0 0)
  | 68 => ret (mk_column_type DT_BOOLEAN 0 0 0)
  | 69 => n <- as_int (d 3%nat) ;; ret (mk_column_type DT_CHAR n 0 0)
  | 70 => n <- as_int (d 3%nat) ;; ret (mk_column_type DT_VARCHAR n 0 0)
  | 71 => ret (mk_column_type DT_DATE 0 0 0)
  | 72 => ret (mk_column_type DT_DATETIME 0 0 0)
  | 73 =>
    p <- getf F_first (d 2%nat) ;; p <- as_int p ;; s <- getf F_second (d 2%nat) ;; s <- as_int s ;;
    del_block (d 2%nat) ;; ret (mk_column_type DT_DECIMAL 0 p s)
  | 74 => ret (mk_column_type DT_DOUBLE 0 0 0)
  | 75 => ret (mk_column_type DT_FLOAT 0 0 0)
  | 76 => ret (mk_column_type DT_INT 0 0 0)
  | 77 => ret (mk_column_type DT_INT 0 0 0)
  | 78 => ret (mk_column_type DT_LONG 0 0 0)
  | 79 => ret (mk_column_type DT_REAL 0 0 0)
  | 80 => ret (mk_column_type DT_SMALLINT 0 0 0)
  | 81 => ret (mk_column_type DT_TEXT 0 0 0)
  | 82 => p <- as_int (d 2%nat) ;; ret (mk_column_type DT_TIME 0 p 0)
  | 83 => ret (mk_column_type DT_DATETIME 0 0 0)
  | 84 => n <- as_int (d 3%nat) ;; ret (mk_column_type DT_VARCHAR n 0 0)
  (* opt_time_precision; 735-736 *)
  | 85 => ret (d 2%nat)
  | 86 => ret (VInt 0)
  (* opt_decimal_specification; 738-740 *)
  | 87 => new CPairInt [(F_first, d 2%nat); (F_second, d 4%nat)]
  | 88 => new CPairInt [(F_first, d 2%nat); (F_second, VInt 0)]
  | 89 => new CPairInt [(F_first, VInt 0); (F_second, VInt 0)]
  (* opt_column_constraints, column_constraints; 742-764 *)
  | 90 => ret (d 1%nat)
  | 91 => newColumnConstraints
  | 92 => v <- newColumnConstraints ;; x <- as_enum (d 1%nat) ;; add_constraint x v
  | 93 => x <- as_enum (d 2%nat) ;; add_constraint x (d 1%nat)
  | 94 => v <- newColumnConstraints ;; v <- add_constraint ForeignKey v ;; add_reference (d 1%nat) v
  | 95 => v <- add_constraint ForeignKey (d 1%nat) ;; add_reference (d 2%nat) v
  (* column_constraint; 766-769 *)
  | 96 => ret PrimaryKey
  | 97 => ret Unique
  | 98 => ret CNull
  | 99 => ret NotNull
  (* table_constraint, references_spec; 771-775 *)
  | 100 => new CTableConstraint (init_TableConstraint PrimaryKey (d 4%nat))
  | 101 => new CTableConstraint (init_TableConstraint Unique (d 3%nat))
  | 102 => new CForeignKeyConstraint (init_ForeignKeyConstraint (d 4%nat) (d 6%nat))
  | 103 =>
    s <- getf F_schema (d 2%nat) ;; n <- getf F_name (d 2%nat) ;;
    new CReferencesSpecification (init_ReferencesSpecification s n (d 3%nat))
  (* drop_statement; 783-805 *)
  | 104 =>
    v <- new CDropStatement (init_DropStatement kDropTable) ;;
    s <- getf F_schema (d 4%nat) ;; n <- getf F_name (d 4%nat) ;;
    puts [(F_ifExists, d 3%nat); (F_schema, s); (F_name, n)] v
  | 105 =>
    v <- new CDropStatement (init_DropStatement kDropView) ;;
    s <- getf F_schema (d 4%nat) ;; n <- getf F_name (d 4%nat) ;;
    puts [(F_ifExists, d 3%nat); (F_schema, s); (F_name, n)] v
  | 106 =>
    v <- new CDropStatement (init_DropStatement kDropPreparedStatement) ;;
    puts [(F_ifExists, VBool false); (F_name, d 3%nat)] v
  | 107 =>
    v <- new CDropStatement (init_DropStatement kDropIndex) ;;
    puts [(F_ifExists, d 3%nat); (F_indexName, d 4%nat)] v
  (* opt_exists; 807-808 *)
  | 108 => ret (VBool true)
  | 109 => ret (VBool false)
  (* alter_statement, alter_action, drop_action; 815-826 *)
  | 110 =>
    n <- getf F_name (d 4%nat) ;; v <- new CAlterStatement (init_AlterStatement n (d 5%nat)) ;;
    s <- getf F_schema (d 4%nat) ;; puts [(F_ifTableExists, d 3%nat); (F_schema, s)] v
  | 111 => ret (d 1%nat)
  | 112 => v <- new CDropColumnAction (init_DropColumnAction (d 4%nat)) ;; put F_ifExists (d 3%nat) v
  (* delete_statement, truncate_statement; 833-844 *)
  | 113 =>
    v <- new CDeleteStatement init_DeleteStatement ;;
    s <- getf F_schema (d 3%nat) ;; n <- getf F_name (d 3%nat) ;;
    puts [(F_schema, s); (F_tableName, n); (F_expr, d 4%nat)] v
  | 114 =>
    v <- new CDeleteStatement init_DeleteStatement ;;
    s <- getf F_schema (d 2%nat) ;; n <- getf F_name (d 2%nat) ;;
    puts [(F_schema, s); (F_tableName, n)] v
  (* insert_statement; 851-864 *)
  | 115 =>
    v <- new CInsertStatement (init_InsertStatement kInsertValues) ;;
    s <- getf F_schema (d 3%nat) ;; n <- getf F_name (d 3%nat) ;;
    puts [(F_schema, s); (F_tableName, n); (F_columns, d 4%nat); (F_values, d 7%nat)] v
  | 116 =>
    v <- new CInsertStatement (init_InsertStatement kInsertSelect) ;;
    s <- getf F_schema (d 3%nat) ;; n <- getf F_name (d 3%nat) ;;
    puts [(F_schema, s); (F_tableName, n); (F_columns, d 4%nat); (F_select, d 5%nat)] v
  (* opt_column_list; 866-867 *)
  | 117 => ret (d 2%nat)
  | 118 => ret VNull
  (* update_statement, update_clause_commalist, update_clause; 874-894 *)
  | 119 =>
    v <- new CUpdateStatement init_UpdateStatement ;;
    puts [(F_table, d 2%nat); (F_updates, d 4%nat); (F_where, d 5%nat)] v
  | 120 => vec1 (d 1%nat)
  | 121 => vpush (d 3%nat) (d 1%nat)
  | 122 => v <- new CUpdateClause init_UpdateClause ;; puts [(F_column, d 1%nat); (F_value, d 3%nat)] v
  (* select_statement; 900-918 *)
  | 123 | 124 => put F_withDescriptions (d 1%nat) (d 2%nat)
  | 125 =>
    v <- add_set_operation (d 3%nat) [(F_nestedSelectStatement, d 4%nat); (F_resultOrder, d 5%nat); (F_resultLimit, d 6%nat)]
                           (d 2%nat) ;;
    put F_withDescriptions (d 1%nat) v
  (* select_within_set_operation; 920-930 *)
  | 126 | 127 | 128 => ret (d 1%nat)
  | 129 => add_set_operation (d 2%nat) [(F_nestedSelectStatement, d 3%nat)] (d 1%nat)
  (* select_with_paren; 932-933 *)
  | 130 | 131 => ret (d 2%nat)
  (* select_no_paren; 935-959 *)
  | 132 =>
    v <- put F_order (d 2%nat) (d 1%nat) ;;
    n <- is_null (d 3%nat) ;;
    v <- (if n then ret v else (l <- getf F_limit v ;; del l ;; put F_limit (d 3%nat) v)) ;;
    m <- is_null (d 4%nat) ;;
    if m then ret v else put F_lockings (d 4%nat) v
  | 133 =>
    v <- add_set_operation (d 2%nat) [(F_nestedSelectStatement, d 3%nat); (F_resultOrder, d 4%nat); (F_resultLimit, d 5%nat)]
                           (d 1%nat) ;;
    put F_lockings (d 6%nat) v
  (* set_operator, set_type, opt_all; 961-980 *)
  | 134 => put F_isAll (d 2%nat) (d 1%nat)
  | 135 => v <- new CSetOperation init_SetOperation ;; put F_setType kSetUnion v
  | 136 => v <- new CSetOperation init_SetOperation ;; put F_setType kSetIntersect v
  | 137 => v <- new CSetOperation init_SetOperation ;; put F_setType kSetExcept v
  | 138 => ret (VBool true)
  | 139 => ret (VBool false)
  (* select_clause; 982-990 *)
  | 140 =>
    v <- new CSelectStatement init_SelectStatement ;;
    puts [(F_limit, d 2%nat); (F_selectDistinct, d 3%nat); (F_selectList, d 4%nat); (F_fromTable, d 5%nat);
          (F_whereClause, d 6%nat); (F_groupBy, d 7%nat)] v
  (* opt_distinct .. opt_having; 992-1013 *)
  | 141 => ret (VBool true)
  | 142 => ret (VBool false)
  | 143 => ret (d 1%nat)
  | 144 => ret (d 1%nat)
  | 145 => ret VNull
  | 146 => ret (d 2%nat)
  | 147 => ret (d 2%nat)
  | 148 => ret VNull
  | 149 => v <- new CGroupByDescription init_GroupByDescription ;; puts [(F_columns, d 3%nat); (F_having, d 4%nat)] v
  | 150 => ret VNull
  | 151 => ret (d 2%nat)
  | 152 => ret VNull
  (* opt_order, order_list, order_desc, opt_order_type; 1015-1031 *)
  | 153 => ret (d 3%nat)
  | 154 => ret VNull
  | 155 => vec1 (d 1%nat)
  | 156 => vpush (d 3%nat) (d 1%nat)
  | 157 => new COrderDescription (init_OrderDescription (d 2%nat) (d 1%nat) (d 3%nat))
  | 158 => ret kOrderAsc
  | 159 => ret kOrderDesc
  | 160 => ret kOrderAsc
  (* opt_null_ordering; 1033-1052 *)
  | 161 => ret NullOrdering_Undefined
  | 162 =>
    s1 <- cstr (d 1%nat) ;; s2 <- cstr (d 2%nat) ;;
    let o := if casecmp s1 (la "nulls") then
               (if casecmp s2 (la "first") then NullOrdering_First
                else if casecmp s2 (la "last") then NullOrdering_Last else NullOrdering_Undefined)
             else NullOrdering_Undefined in
    free_ (d 1%nat) ;; free_ (d 2%nat) ;;
    if enum_is o NullOrdering_Undefined then (yyerror err_nulls ;; YYERROR) else ret o
  (* opt_top, opt_limit; 1056-1064 *)
  | 163 => new CLimitDescription (init_LimitDescription (d 2%nat) VNull)
  | 164 => ret VNull
  | 165 => new CLimitDescription (init_LimitDescription (d 2%nat) VNull)
  | 166 => new CLimitDescription (init_LimitDescription VNull (d 2%nat))
  | 167 => new CLimitDescription (init_LimitDescription (d 2%nat) (d 4%nat))
  | 168 => new CLimitDescription (init_LimitDescription VNull VNull)
  | 169 => new CLimitDescription (init_LimitDescription VNull (d 4%nat))
  | 170 => ret VNull
  (* expr_list, extended literal lists; 1069-1089 *)
  | 171 => vec1 (d 1%nat)
  | 172 => vpush (d 3%nat) (d 1%nat)
  | 173 => ret (d 1%nat)
  | 174 => ret VNull
  | 175 => vec1 (d 1%nat)
  | 176 => vpush (d 3%nat) (d 1%nat)
  (* casted_extended_literal, extended_literal; 1091-1104 *)
  | 177 => ret (d 1%nat)
  | 178 => makeCast (d 3%nat) (d 5%nat)
  | 179 =>
    t <- getf F_type (d 1%nat) ;;
    if enum_is t kExprParameter then (del (d 1%nat) ;; yyerror err_param_literal ;; YYERROR) else ret (d 1%nat)
  | 180 | 181 => makeOpUnary kOpUnaryMinus (d 2%nat)
  (* expr_alias; 1106-1113 *)
  | 182 =>
    n <- is_null (d 2%nat) ;;
    if n then ret (d 1%nat)
    else (s <- getf F_name (d 2%nat) ;; v <- put F_alias s (d 1%nat) ;; a <- put F_name VNull (d 2%nat) ;; del a ;; ret v)
  (* expr, operand, scalar_expr; 1115-1123 *)
  | 183 | 184 | 185 | 186 | 187 => ret (d 1%nat)
  | 188 => ret (d 2%nat)
  | 189 | 190 | 191 | 192 | 193 | 194 | 195 | 196 | 197 => ret (d 1%nat)
  | 198 => makeSelect (d 2%nat)
  | 199 | 200 => ret (d 1%nat)
  (* unary_expr; 1125-1129 *)
  | 201 => makeOpUnary kOpUnaryMinus (d 2%nat)
  | 202 => makeOpUnary kOpNot (d 2%nat)
  | 203 => makeOpUnary kOpIsNull (d 1%nat)
  | 204 => makeOpUnary kOpIsNull (d 1%nat)
  | 205 => v <- makeOpUnary kOpIsNull (d 1%nat) ;; makeOpUnary kOpNot v
  (* binary_expr; 1131-1140 *)
  | 206 => ret (d 1%nat)
  | 207 => makeOpBinary (d 1%nat) kOpMinus (d 3%nat)
  | 208 => makeOpBinary (d 1%nat) kOpPlus (d 3%nat)
  | 209 => makeOpBinary (d 1%nat) kOpSlash (d 3%nat)
  | 210 => makeOpBinary (d 1%nat) kOpAsterisk (d 3%nat)
  | 211 => makeOpBinary (d 1%nat) kOpPercentage (d 3%nat)
  | 212 => makeOpBinary (d 1%nat) kOpCaret (d 3%nat)
  | 213 => makeOpBinary (d 1%nat) kOpLike (d 3%nat)
  | 214 => makeOpBinary (d 1%nat) kOpNotLike (d 4%nat)
  | 215 => makeOpBinary (d 1%nat) kOpILike (d 3%nat)
  | 216 => makeOpBinary (d 1%nat) kOpConcat (d 3%nat)
  (* logic_expr; 1142-1143 *)
  | 217 => makeOpBinary (d 1%nat) kOpAnd (d 3%nat)
  | 218 => makeOpBinary (d 1%nat) kOpOr (d 3%nat)
  (* in_expr; 1145-1148 *)
  | 219 => makeInList (d 1%nat) (d 4%nat)
  | 220 => v <- makeInList (d 1%nat) (d 5%nat) ;; makeOpUnary kOpNot v
  | 221 => makeInSelect (d 1%nat) (d 4%nat)
  | 222 => v <- makeInSelect (d 1%nat) (d 5%nat) ;; makeOpUnary kOpNot v
  (* case_expr, case_list; 1152-1158 *)
  | 223 => makeCase (d 2%nat) (d 3%nat) VNull
  | 224 => makeCase (d 2%nat) (d 3%nat) (d 5%nat)
  | 225 => makeCase VNull (d 2%nat) VNull
  | 226 => makeCase VNull (d 2%nat) (d 4%nat)
  | 227 => v <- makeCaseListElement (d 2%nat) (d 4%nat) ;; makeCaseList v
  | 228 => v <- makeCaseListElement (d 3%nat) (d 5%nat) ;; caseListAppend (d 1%nat) v
  (* exists_expr; 1160-1161 *)
  | 229 => makeExists (d 3%nat)
  | 230 => v <- makeExists (d 4%nat) ;; makeOpUnary kOpNot v
  (* comp_expr; 1163-1169 *)
  | 231 => makeOpBinary (d 1%nat) kOpEquals (d 3%nat)
  | 232 => makeOpBinary (d 1%nat) kOpEquals (d 3%nat)
  | 233 => makeOpBinary (d 1%nat) kOpNotEquals (d 3%nat)
  | 234 => makeOpBinary (d 1%nat) kOpLess (d 3%nat)
  | 235 => makeOpBinary (d 1%nat) kOpGreater (d 3%nat)
  | 236 => makeOpBinary (d 1%nat) kOpLessEq (d 3%nat)
  | 237 => makeOpBinary (d 1%nat) kOpGreaterEq (d 3%nat)
  (* function_expr; 1173-1176 *)
  | 238 => l <- vnew ;; makeFunctionRef (d 1%nat) l (VBool false) (d 4%nat)
  | 239 => makeFunctionRef (d 1%nat) (d 4%nat) (d 3%nat) (d 6%nat)
  | 240 => l <- vnew ;; makeFunctionRef2 (d 3%nat) (d 1%nat) l (VBool false) (d 6%nat)
  | 241 => makeFunctionRef2 (d 3%nat) (d 1%nat) (d 6%nat) (d 5%nat) (d 8%nat)
  (* opt_window, opt_partition, opt_frame_clause, frame_type, frame_bound; 1180-1203 *)
  | 242 => new CWindowDescription (init_WindowDescription (d 3%nat) (d 4%nat) (d 5%nat))
  | 243 => ret VNull
  | 244 => ret (d 3%nat)
  | 245 => ret VNull
  | 246 =>
    b <- new CFrameBound (init_FrameBound 0 kCurrentRow false) ;;
    new CFrameDescription (init_FrameDescription (d 1%nat) (d 2%nat) b)
  | 247 => new CFrameDescription (init_FrameDescription (d 1%nat) (d 3%nat) (d 5%nat))
  | 248 =>
    a <- new CFrameBound (init_FrameBound 0 kPreceding true) ;;
    b <- new CFrameBound (init_FrameBound 0 kCurrentRow false) ;;
    new CFrameDescription (init_FrameDescription kRange a b)
  | 249 => ret kRange
  | 250 => ret kRows
  | 251 => ret kGroups
  | 252 => new CFrameBound (init_FrameBound 0 kPreceding true)
  | 253 => n <- as_int (d 1%nat) ;; new CFrameBound (init_FrameBound n kPreceding false)
  | 254 => new CFrameBound (init_FrameBound 0 kFollowing true)
  | 255 => n <- as_int (d 1%nat) ;; new CFrameBound (init_FrameBound n kFollowing false)
  | 256 => new CFrameBound (init_FrameBound 0 kCurrentRow false)
  (* extract_expr, cast_expr; 1205-1207 *)
  | 257 => makeExtract (d 3%nat) (d 5%nat)
  | 258 => makeCast (d 3%nat) (d 5%nat)
  (* datetime_field, datetime_field_plural, duration_field; 1209-1223 *)
  | 259 | 265 => ret kDatetimeSecond
  | 260 | 266 => ret kDatetimeMinute
  | 261 | 267 => ret kDatetimeHour
  | 262 | 268 => ret kDatetimeDay
  | 263 | 269 => ret kDatetimeMonth
  | 264 | 270 => ret kDatetimeYear
  | 271 | 272 => ret (d 1%nat)
  (* array_expr, array_index, between_expr; 1225-1229.  array_index reads $3->ival and drops $3. *)
  | 273 => makeArray (d 3%nat)
  | 274 => i <- getf F_ival (d 3%nat) ;; makeArrayIndex (d 1%nat) i
  | 275 => makeBetween (d 1%nat) (d 3%nat) (d 5%nat)
  (* column_name; 1231-1234 *)
  | 276 => makeColumnRef (d 1%nat)
  | 277 => makeColumnRef2 (d 1%nat) (d 3%nat)
  | 278 => makeStar
  | 279 => makeStar1 (d 1%nat)
  (* literals; 1236-1248 *)
  | 280 | 281 | 282 | 283 | 284 | 285 | 286 => ret (d 1%nat)
  | 287 => makeLiteralString (d 1%nat)
  | 288 => makeLiteralBool true
  | 289 => makeLiteralBool false
  | 290 => makeLiteralFloat (d 1%nat)
  | 291 => ret (d 1%nat)
  | 292 => n <- as_int (d 1%nat) ;; makeLiteralInt n
  | 293 => makeNullLiteral
  (* date_literal; 1250-1259 *)
  | 294 =>
    s <- cstr (d 2%nat) ;;
    if scan_date s then makeDateLiteral (d 2%nat)
    else (free_ (d 2%nat) ;; yyerror err_date ;; YYERROR)
  (* interval_literal; 1261-1303 *)
  | 295 => n <- as_int (d 1%nat) ;; makeIntervalLiteral n (d 2%nat)
  | 296 =>
    s <- cstr (d 2%nat) ;;
    match scan_interval1 s with
    | SUB => fail UScanf
    | SNo => free_ (d 2%nat) ;; yyerror err_interval1 ;; YYERROR
    | SYes n _ => free_ (d 2%nat) ;; makeIntervalLiteral n (d 3%nat)
    end
  | 297 =>
    s <- cstr (d 2%nat) ;;
    match scan_interval2 s with
    | SUB => fail UScanf
    | SNo => free_ (d 2%nat) ;; yyerror err_interval2 ;; YYERROR
    | SYes n u =>
      free_ (d 2%nat) ;;
      match unit_of u with
      | None => yyerror err_interval_unit ;; YYERROR
      | Some f => makeIntervalLiteral n f
      end
    end
  (* param_expr; 1305-1309 *)
  | 298 =>
    c <- (fun e => ROk (total (e_lpos e)) e) ;; v <- makeParameter c ;;
    n <- (fun e => ROk (Z.of_nat (Datatypes.length (e_plist e))) e) ;; v <- put F_ival2 (VInt n) v ;;
    match v with
    | VObj a _ _ => (fun e => ROk tt (set_plist (e_plist e ++ [a]) e)) ;; ret v
    | _ => fail UBadValue
    end
  (* table_ref .. table_ref_name_no_alias; 1314-1351 *)
  | 299 => ret (d 1%nat)
  | 300 =>
    l <- vpush (d 3%nat) (d 1%nat) ;; v <- new CTableRef (init_TableRef kTableCrossProduct) ;; put F_list l v
  | 301 | 302 | 303 => ret (d 1%nat)
  | 304 => v <- new CTableRef (init_TableRef kTableSelect) ;; puts [(F_select, d 2%nat); (F_alias, d 4%nat)] v
  | 305 => vec1 (d 1%nat)
  | 306 => vpush (d 3%nat) (d 1%nat)
  | 307 => v <- table_ref_of (d 1%nat) ;; put F_alias (d 2%nat) v
  | 308 => table_ref_of (d 1%nat)
  (* table_name; 1353-1360 *)
  | 309 => ret (mk_table_name VNull (d 1%nat))
  | 310 => ret (mk_table_name (d 1%nat) (d 3%nat))
  (* opt_index_name, aliases; 1362-1372 *)
  | 311 => ret (d 1%nat)
  | 312 => ret VNull
  | 313 => ret (d 1%nat)
  | 314 => new CAlias (init_Alias (d 2%nat) (d 4%nat))
  | 315 => ret (d 1%nat)
  | 316 => ret VNull
  | 317 => new CAlias (init_Alias (d 2%nat) VNull)
  | 318 => new CAlias (init_Alias (d 1%nat) VNull)
  | 319 => ret (d 1%nat)
  | 320 => ret VNull
  (* locking clauses; 1378-1410 *)
  | 321 => ret (d 1%nat)
  | 322 => ret VNull
  | 323 => vec1 (d 1%nat)
  | 324 => vpush (d 2%nat) (d 1%nat)
  | 325 =>
    v <- new CLockingClause init_LockingClause ;;
    puts [(F_rowLockMode, d 2%nat); (F_rowLockWaitPolicy, d 3%nat); (F_tables, VNull)] v
  | 326 =>
    v <- new CLockingClause init_LockingClause ;;
    puts [(F_rowLockMode, d 2%nat); (F_tables, d 4%nat); (F_rowLockWaitPolicy, d 5%nat)] v
  | 327 => ret ForUpdate
  | 328 => ret ForNoKeyUpdate
  | 329 => ret ForShare
  | 330 => ret ForKeyShare
  | 331 => ret SkipLocked
  | 332 => ret NoWait
  | 333 => ret LockNone
  (* with clauses; 1416-1433 *)
  | 334 => ret (d 1%nat)
  | 335 => ret VNull
  | 336 => ret (d 2%nat)
  | 337 => vec1 (d 1%nat)
  | 338 => vpush (d 3%nat) (d 1%nat)
  | 339 => v <- new CWithDescription init_WithDescription ;; puts [(F_alias, d 1%nat); (F_select, d 3%nat)] v
  (* join_clause; 1439-1461 *)
  | 340 =>
    v <- new CTableRef (init_TableRef kTableJoin) ;; j <- new CJoinDefinition init_JoinDefinition ;;
    j <- puts [(F_type, kJoinNatural); (F_left, d 1%nat); (F_right, d 4%nat)] j ;; put F_join j v
  | 341 =>
    v <- new CTableRef (init_TableRef kTableJoin) ;; j <- new CJoinDefinition init_JoinDefinition ;;
    j <- puts [(F_type, d 2%nat); (F_left, d 1%nat); (F_right, d 4%nat); (F_condition, d 6%nat)] j ;; put F_join j v
  | 342 =>
    v <- new CTableRef (init_TableRef kTableJoin) ;; j <- new CJoinDefinition init_JoinDefinition ;;
    j <- puts [(F_type, d 2%nat); (F_left, d 1%nat); (F_right, d 4%nat); (F_namedColumns, d 7%nat)] j ;; put F_join j v
  (* opt_join_type, join_condition; 1463-1474 *)
  | 343 => ret kJoinInner
  | 344 | 345 => ret kJoinLeft
  | 346 | 347 => ret kJoinRight
  | 348 | 349 | 350 => ret kJoinFull
  | 351 => ret kJoinCross
  | 352 => ret kJoinInner
  | 353 => ret (d 1%nat)
  (* opt_semicolon (no type); 1480 *)
  | 354 | 355 => ret VUninit
  (* ident_commalist; 1483-1490 *)
  | 356 => vec1 (d 1%nat)
  | 357 => vpush (d 3%nat) (d 1%nat)
  | _ => fail UTable
  end.
