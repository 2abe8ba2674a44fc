(** Specification of the semantic values: which object tree every production of bison_parser.y denotes, as a pure function
    of the values of its right-hand side.  No heap, no addresses, no errors other than [None] (= the production's semantic
    check fails).  Independent of Actions.v: the objects are described by their class and the members that differ from
    the blank object. *)
From Verif Require Import Base TokenCodes LexModel Ast Heap Actions ParseModel Grammar.
Local Open Scope N_scope.

(** ** Erasure: forget addresses.
    The position-dependent id which a parameter carries in [ival] until the end of the parse is replaced by its index
    [ival2], and [stringLength] (specified by C19) by 0. *)
Definition param_index (c : cls) (fs : list (fld * val)) : option Z :=
  match c with
  | CExpr =>
    match lookup F_type fs, lookup F_ival2 fs with
    | Some (VEnum EExprType 7), Some (VInt z) => Some z
    | _, _ => None
    end
  | _ => None
  end.
Definition erase_scalar (f : fld) (v : val) : val :=
  match f, v with F_stringLength, VInt _ => VInt 0 | _, _ => v end.
Definition erase_obj (c : cls) (fs : list (fld * val)) : list (fld * val) :=
  match param_index c fs with Some z => update F_ival (VInt z) fs | None => fs end.
Fixpoint erase (v : val) : val :=
  match v with
  | VStr _ s => VStr 0 s
  | VObj _ c fs =>
    VObj 0 c (erase_obj c ((fix go (fs : list (fld * val)) :=
                              match fs with [] => [] | (f, y) :: r => (f, erase_scalar f (erase y)) :: go r end) fs))
  | VVec _ l => VVec 0 (map erase l)
  | VRec fs => VRec ((fix go (fs : list (fld * val)) :=
                        match fs with [] => [] | (f, y) :: r => (f, erase_scalar f (erase y)) :: go r end) fs)
  | _ => v
  end.

(** ** Object trees *)
Definition nulls (l : list fld) : list (fld * val) := map (fun f => (f, VNull)) l.
Definition no_type : val := mk_column_type DT_UNKNOWN 0 0 0.
Definition statement (k : val) : list (fld * val) := [(F_stringLength, VUninit); (F_hints, VNull); (F_type_, k)].
(** The object of class [c] with nothing set. *)
Definition blank (c : cls) : list (fld * val) :=
  match c with
  | CExpr =>
    [(F_type, kExprOperator)] ++ nulls [F_expr; F_expr2; F_exprList; F_select; F_name; F_table; F_schema; F_alias] ++
    [(F_fval, VFlt (la "0")); (F_ival, VInt 0); (F_ival2, VInt 0); (F_datetimeField, kDatetimeNone);
     (F_columnType, no_type); (F_isBoolLiteral, VBool false); (F_opType, kOpNone); (F_distinct, VBool false);
     (F_windowDescription, VNull)]
  | CSelectStatement =>
    statement kStmtSelect ++ [(F_fromTable, VNull); (F_selectDistinct, VBool false)] ++
    nulls [F_selectList; F_whereClause; F_groupBy; F_setOperations; F_order; F_withDescriptions; F_limit; F_lockings]
  | CCreateStatement =>
    statement kStmtCreate ++ [(F_type, kCreateTable); (F_ifNotExists, VBool false)] ++
    nulls [F_filePath; F_schema; F_tableName; F_indexName; F_indexColumns; F_columns; F_tableConstraints; F_viewColumns;
           F_select]
  | CInsertStatement =>
    statement kStmtInsert ++ [(F_type, kInsertValues)] ++ nulls [F_schema; F_tableName; F_columns; F_values; F_select]
  | CDeleteStatement => statement kStmtDelete ++ nulls [F_schema; F_tableName; F_expr]
  | CUpdateStatement => statement kStmtUpdate ++ nulls [F_table; F_updates; F_where]
  | CDropStatement =>
    statement kStmtDrop ++ [(F_type, kDropTable); (F_ifExists, VBool false)] ++ nulls [F_schema; F_name; F_indexName]
  | CAlterStatement =>
    statement kStmtAlter ++ [(F_schema, VNull); (F_ifTableExists, VBool false); (F_name, VNull); (F_action, VNull)]
  | CPrepareStatement => statement kStmtPrepare ++ nulls [F_name; F_query]
  | CExecuteStatement => statement kStmtExecute ++ nulls [F_name; F_parameters]
  | CExportStatement =>
    statement kStmtExport ++ [(F_type, kImportAuto)] ++
    nulls [F_filePath; F_schema; F_tableName; F_select; F_encoding; F_csv_options]
  | CImportStatement =>
    statement kStmtImport ++ [(F_type, kImportAuto)] ++
    nulls [F_filePath; F_schema; F_tableName; F_whereClause; F_encoding; F_csv_options]
  | CShowStatement => statement kStmtShow ++ [(F_type, kShowColumns)] ++ nulls [F_schema; F_name]
  | CTransactionStatement => statement kStmtTransaction ++ [(F_command, kBeginTransaction)]
  | CFrameBound => [(F_offset, VInt 0); (F_type, kCurrentRow); (F_unbounded, VBool false)]
  | CFrameDescription => [(F_type, kRange); (F_start, VNull); (F_end, VNull)]
  | CWindowDescription => nulls [F_partitionList; F_orderList; F_frameDescription]
  | CAlias => nulls [F_name; F_columns]
  | CTableRef => [(F_type, kTableName)] ++ nulls [F_schema; F_name; F_alias; F_select; F_list; F_join]
  | CJoinDefinition => nulls [F_left; F_right; F_condition; F_namedColumns] ++ [(F_type, kJoinInner)]
  | COrderDescription => [(F_type, kOrderAsc); (F_expr, VNull); (F_null_ordering, NullOrdering_Undefined)]
  | CLimitDescription => nulls [F_limit; F_offset]
  | CGroupByDescription => nulls [F_columns; F_having]
  | CWithDescription => nulls [F_alias; F_select]
  | CSetOperation =>
    [(F_setType, VUninit); (F_isAll, VUninit)] ++ nulls [F_nestedSelectStatement; F_resultOrder; F_resultLimit]
  | CLockingClause => [(F_rowLockMode, ForUpdate); (F_rowLockWaitPolicy, NoWait); (F_tables, VNull)]
  | CColumnDefinition =>
    nulls [F_column_constraints; F_name] ++ [(F_type, no_type); (F_nullable, VBool true); (F_references, VNull)]
  | CTableConstraint => [(F_type, PrimaryKey); (F_columnNames, VNull)]
  | CForeignKeyConstraint => [(F_type, ForeignKey); (F_columnNames, VNull); (F_references, VNull)]
  | CReferencesSpecification => nulls [F_schema; F_table; F_columns]
  | CColumnConstraints => nulls [F_constraints; F_references]
  | CUpdateClause => nulls [F_column; F_value]
  | CDropColumnAction => [(F_type, ActionDropColumn); (F_columnName, VNull); (F_ifExists, VBool false)]
  | CCsvOptions => nulls [F_delimiter; F_null; F_quote]
  | CImportExportOptions => [(F_format, kImportAuto); (F_encoding, VNull); (F_csv_options, VNull)]
  | CPairInt => [(F_first, VInt 0); (F_second, VInt 0)]
  | CPairCsv => [(F_first, CsvDelimiter); (F_second, VNull)]
  end.
Fixpoint upds (l : list (fld * val)) (fs : list (fld * val)) : list (fld * val) :=
  match l with [] => fs | (f, x) :: l' => upds l' (update f x fs) end.
(** The object of class [c] with the given members. *)
Definition obj (c : cls) (l : list (fld * val)) : val := VObj 0 c (upds l (blank c)).
(** The object [v] with changed members. *)
Definition with_ (l : list (fld * val)) (v : val) : val :=
  match v with VObj a c fs => VObj a c (upds l fs) | _ => v end.
(** Member of an object (null if there is none: never used on such objects). *)
Definition fget (f : fld) (v : val) : val :=
  match v with VObj _ _ fs | VRec fs => match lookup f fs with Some x => x | None => VNull end | _ => VNull end.
Definition vec (l : list val) : val := VVec 0 l.
Definition elems (v : val) : list val := match v with VVec _ l => l | _ => [] end.
Definition snoc (v x : val) : val := vec (elems v ++ [x]).
Definition text (v : val) : bytes := match v with VStr _ s => s | _ => [] end.
Definition num (v : val) : Z := match v with VInt z => z | _ => 0 end.
Definition isnull (v : val) : bool := match v with VNull => true | _ => false end.

Definition expr (k : val) (l : list (fld * val)) : val := obj CExpr ((F_type, k) :: l).
Definition unop (o a : val) : val := expr kExprOperator [(F_opType, o); (F_expr, a)].
Definition binop (a o b : val) : val := expr kExprOperator [(F_opType, o); (F_expr, a); (F_expr2, b)].
Definition int_lit (z : Z) : val := expr kExprLiteralInt [(F_ival, VInt z)].
Definition bool_lit (b : bool) : val :=
  expr kExprLiteralInt [(F_ival, VInt (if b then 1 else 0)); (F_isBoolLiteral, VBool true)].
Definition interval (n : Z) (u : val) : val := expr kExprLiteralInterval [(F_ival, VInt n); (F_datetimeField, u)].
Definition bound (n : Z) (k : val) (u : bool) : val :=
  obj CFrameBound [(F_offset, VInt n); (F_type, k); (F_unbounded, VBool u)].
Definition current_row : val := bound 0 kCurrentRow false.
Definition frame (k s e : val) : val := obj CFrameDescription [(F_type, k); (F_start, s); (F_end, e)].
Definition case_of (e cl els : val) : val :=
  expr kExprOperator [(F_opType, kOpCase); (F_expr, e); (F_expr2, els); (F_exprList, fget F_exprList cl)].
Definition case_elem (w t : val) : val :=
  expr kExprOperator [(F_opType, kOpCaseListElement); (F_expr, w); (F_expr2, t)].
Definition in_list (e l : val) : val := expr kExprOperator [(F_opType, kOpIn); (F_expr, e); (F_exprList, l)].
Definition in_select (e s : val) : val := expr kExprOperator [(F_opType, kOpIn); (F_expr, e); (F_select, s)].
Definition exists_ (s : val) : val := expr kExprOperator [(F_opType, kOpExists); (F_select, s)].
Definition func (schema name args distinct window : val) : val :=
  expr kExprFunctionRef [(F_schema, schema); (F_name, name); (F_exprList, args); (F_distinct, distinct);
                         (F_windowDescription, window)].
Definition cast (e t : val) : val := expr kExprCast [(F_columnType, t); (F_expr, e)].
Definition limit (l o : val) : val := obj CLimitDescription [(F_limit, l); (F_offset, o)].
Definition table_ref (tn alias : val) : val :=
  obj CTableRef [(F_type, kTableName); (F_schema, fget F_schema tn); (F_name, fget F_name tn); (F_alias, alias)].
Definition join (k l r cond cols : val) : val :=
  obj CTableRef [(F_type, kTableJoin);
    (F_join, obj CJoinDefinition [(F_type, k); (F_left, l); (F_right, r); (F_condition, cond); (F_namedColumns, cols)])].
Definition create (k ine tn : val) (l : list (fld * val)) : val :=
  obj CCreateStatement ([(F_type, k); (F_ifNotExists, ine); (F_schema, fget F_schema tn); (F_tableName, fget F_name tn)] ++ l).
Definition drop_ (k ie schema name index : val) : val :=
  obj CDropStatement [(F_type, k); (F_ifExists, ie); (F_schema, schema); (F_name, name); (F_indexName, index)].
(** A set operation at the end of the list of [s]. *)
Definition set_op (s op nested order lim : val) : val :=
  with_ [(F_setOperations, snoc (fget F_setOperations s)
            (with_ [(F_nestedSelectStatement, nested); (F_resultOrder, order); (F_resultLimit, lim)] op))] s.
Definition set_type (k : val) : val := obj CSetOperation [(F_setType, k)].
Definition options (f e c : val) : val := obj CImportExportOptions [(F_format, f); (F_encoding, e); (F_csv_options, c)].
Definition is_enum (x y : val) : bool := enum_is x y.
Definition mem_enum (x : val) (l : list val) : bool := existsb (is_enum x) l.
(** Column constraints are a set. *)
Definition add_enum (v x : val) : val := if mem_enum x (elems v) then v else snoc v x.
Definition constraints (cs rs : val) : val := obj CColumnConstraints [(F_constraints, cs); (F_references, rs)].
Definition csv_field (k : val) : fld :=
  if is_enum k CsvDelimiter then F_delimiter else if is_enum k CsvNull then F_null else F_quote.
Definition is_class (cs : list cls) (v : val) : bool :=
  match v with VObj _ c _ => existsb (cls_beq c) cs | _ => false end.

(** Case-insensitive words. *)
Definition file_type (s : bytes) : option val :=
  if casecmp s (la "csv") then Some kImportCSV
  else if casecmp s (la "tbl") then Some kImportTbl
  else if casecmp s (la "binary") || casecmp s (la "bin") then Some kImportBinary
  else None.
Definition null_ordering (s1 s2 : bytes) : option val :=
  if casecmp s1 (la "nulls") then
    if casecmp s2 (la "first") then Some NullOrdering_First
    else if casecmp s2 (la "last") then Some NullOrdering_Last else None
  else None.

(** ** The value of a production.  [k]: number of parameters before it. *)
Definition asem (r : N) (k : nat) (args : list val) : option val :=
  let d (i : nat) := nth (Nat.pred i) args VUninit in
  let d1 := d 1%nat in let d2 := d 2%nat in let d3 := d 3%nat in let d4 := d 4%nat in let d5 := d 5%nat in
  let d6 := d 6%nat in let d7 := d 7%nat in let d8 := d 8%nat in
  match r with
  (* statements *)
  | 2 => Some VUninit
  | 3 => Some (vec [with_ [(F_stringLength, VInt 0)] d1])
  | 4 => Some (snoc d1 (with_ [(F_stringLength, VInt 0)] d3))
  | 5 | 6 => Some (with_ [(F_hints, d2)] d1)
  | 20 => Some d4
  | 21 | 41 | 118 | 145 | 148 | 150 | 152 | 154 | 164 | 170 | 174 | 243 | 245 | 312 | 316 | 320 | 322 | 335 =>
    match r with 41 => Some (options kImportAuto VNull VNull) | _ => Some VNull end
  (* lists *)
  | 22 | 62 | 120 | 155 | 171 | 175 | 305 | 323 | 337 | 356 => Some (vec [d1])
  | 23 | 63 | 121 | 156 | 172 | 176 | 306 | 338 | 357 => Some (snoc d1 d3)
  | 324 => Some (snoc d1 d2)
  | 24 => Some (expr kExprHint [(F_name, d1)])
  | 25 => Some (expr kExprHint [(F_name, d1); (F_exprList, d3)])
  | 26 => Some (obj CTransactionStatement [(F_command, kBeginTransaction)])
  | 27 => Some (obj CTransactionStatement [(F_command, kRollbackTransaction)])
  | 28 => Some (obj CTransactionStatement [(F_command, kCommitTransaction)])
  | 29 | 30 | 354 | 355 => Some VUninit
  | 31 => Some (obj CPrepareStatement [(F_name, d2); (F_query, d4)])
  | 33 => Some (obj CExecuteStatement [(F_name, d2)])
  | 34 => Some (obj CExecuteStatement [(F_name, d2); (F_parameters, d4)])
  (* import / export *)
  | 35 => Some (obj CImportStatement [(F_type, d3); (F_filePath, d5); (F_schema, fget F_schema d7);
                                      (F_tableName, fget F_name d7)])
  | 36 => Some (obj CImportStatement [(F_type, fget F_format d5); (F_filePath, d4); (F_schema, fget F_schema d2);
                                      (F_tableName, fget F_name d2); (F_whereClause, d6);
                                      (F_encoding, fget F_encoding d5); (F_csv_options, fget F_csv_options d5)])
  | 37 => file_type (text d1)
  | 39 => Some d3
  | 40 => Some d2
  | 42 => if is_enum (fget F_format d1) kImportAuto && (isnull (fget F_csv_options d1) || is_enum d4 kImportCSV)
          then Some (with_ [(F_format, d4)] d1) else None
  | 43 => Some (options d2 VNull VNull)
  | 44 => if isnull (fget F_encoding d1) then Some (with_ [(F_encoding, d4)] d1) else None
  | 45 => Some (options kImportAuto d2 VNull)
  | 46 =>
    let csv := if isnull (fget F_csv_options d1) then obj CCsvOptions [] else fget F_csv_options d1 in
    let f := csv_field (fget F_first d3) in
    if (is_enum (fget F_format d1) kImportAuto || is_enum (fget F_format d1) kImportCSV) && isnull (fget f csv)
    then Some (with_ [(F_csv_options, with_ [(f, fget F_second d3)] csv)] d1) else None
  | 47 => Some (options kImportAuto VNull (obj CCsvOptions [(csv_field (fget F_first d1), fget F_second d1)]))
  | 48 =>
    if casecmp (text d1) (la "DELIMITER") then Some (obj CPairCsv [(F_first, CsvDelimiter); (F_second, d2)])
    else if casecmp (text d1) (la "QUOTE") then Some (obj CPairCsv [(F_first, CsvQuote); (F_second, d2)])
    else None
  | 49 => Some (obj CPairCsv [(F_first, CsvNull); (F_second, d2)])
  | 50 => Some (obj CExportStatement [(F_type, fget F_format d5); (F_filePath, d4); (F_schema, fget F_schema d2);
                                      (F_tableName, fget F_name d2);
                                      (F_encoding, fget F_encoding d5); (F_csv_options, fget F_csv_options d5)])
  | 51 => Some (obj CExportStatement [(F_type, fget F_format d5); (F_filePath, d4); (F_select, d2);
                                      (F_encoding, fget F_encoding d5); (F_csv_options, fget F_csv_options d5)])
  | 52 => Some (obj CShowStatement [(F_type, kShowTables)])
  | 53 => Some (obj CShowStatement [(F_type, kShowColumns); (F_schema, fget F_schema d3); (F_name, fget F_name d3)])
  | 54 => Some (obj CShowStatement [(F_type, kShowColumns); (F_schema, fget F_schema d2); (F_name, fget F_name d2)])
  (* create *)
  | 55 => if casecmp (text d6) (la "tbl") then Some (create kCreateTableFromTbl d3 d4 [(F_filePath, d8)]) else None
  | 56 => Some (create kCreateTable d3 d4
                  [(F_columns, vec (filter (is_class [CColumnDefinition]) (elems d6)));
                   (F_tableConstraints, vec (filter (is_class [CTableConstraint; CForeignKeyConstraint]) (elems d6)))])
  | 57 => Some (create kCreateTable d3 d4 [(F_select, d6)])
  | 58 => Some (obj CCreateStatement [(F_type, kCreateIndex); (F_ifNotExists, d3); (F_tableName, fget F_name d6);
                                      (F_indexName, d4); (F_indexColumns, d8)])
  | 59 => Some (create kCreateView d3 d4 [(F_viewColumns, d5); (F_select, d7)])
  | 60 | 108 | 138 | 141 => Some (VBool true)
  | 61 | 109 | 139 | 142 => Some (VBool false)
  | 66 =>
    let cs := elems (fget F_constraints d3) in
    let strict := mem_enum NotNull cs || mem_enum PrimaryKey cs in
    if strict && mem_enum CNull cs then None
    else Some (obj CColumnDefinition [(F_column_constraints, fget F_constraints d3); (F_name, d1); (F_type, d2);
                                      (F_nullable, VBool (negb strict)); (F_references, fget F_references d3)])
  | 67 => Some (mk_column_type DT_BIGINT 0 0 0)
  | 68 => Some (mk_column_type DT_BOOLEAN 0 0 0)
  | 69 => Some (mk_column_type DT_CHAR (num d3) 0 0)
  | 70 | 84 => Some (mk_column_type DT_VARCHAR (num d3) 0 0)
  | 71 => Some (mk_column_type DT_DATE 0 0 0)
  | 72 | 83 => Some (mk_column_type DT_DATETIME 0 0 0)
  | 73 => Some (mk_column_type DT_DECIMAL 0 (num (fget F_first d2)) (num (fget F_second d2)))
  | 74 => Some (mk_column_type DT_DOUBLE 0 0 0)
  | 75 => Some (mk_column_type DT_FLOAT 0 0 0)
  | 76 | 77 => Some (mk_column_type DT_INT 0 0 0)
  | 78 => Some (mk_column_type DT_LONG 0 0 0)
  | 79 => Some (mk_column_type DT_REAL 0 0 0)
  | 80 => Some (mk_column_type DT_SMALLINT 0 0 0)
  | 81 => Some (mk_column_type DT_TEXT 0 0 0)
  | 82 => Some (mk_column_type DT_TIME 0 (num d2) 0)
  | 85 => Some d2
  | 86 => Some (VInt 0)
  | 87 => Some (obj CPairInt [(F_first, d2); (F_second, d4)])
  | 88 => Some (obj CPairInt [(F_first, d2)])
  | 89 => Some (obj CPairInt [])
  | 91 => Some (constraints (vec []) (vec []))
  | 92 => Some (constraints (vec [d1]) (vec []))
  | 93 => Some (constraints (add_enum (fget F_constraints d1) d2) (fget F_references d1))
  | 94 => Some (constraints (vec [ForeignKey]) (vec [d1]))
  | 95 => Some (constraints (add_enum (fget F_constraints d1) ForeignKey) (snoc (fget F_references d1) d2))
  | 96 => Some PrimaryKey
  | 97 => Some Unique
  | 98 => Some CNull
  | 99 => Some NotNull
  | 100 => Some (obj CTableConstraint [(F_type, PrimaryKey); (F_columnNames, d4)])
  | 101 => Some (obj CTableConstraint [(F_type, Unique); (F_columnNames, d3)])
  | 102 => Some (obj CForeignKeyConstraint [(F_columnNames, d4); (F_references, d6)])
  | 103 => Some (obj CReferencesSpecification [(F_schema, fget F_schema d2); (F_table, fget F_name d2); (F_columns, d3)])
  (* drop, alter, delete, insert, update *)
  | 104 => Some (drop_ kDropTable d3 (fget F_schema d4) (fget F_name d4) VNull)
  | 105 => Some (drop_ kDropView d3 (fget F_schema d4) (fget F_name d4) VNull)
  | 106 => Some (drop_ kDropPreparedStatement (VBool false) VNull d3 VNull)
  | 107 => Some (drop_ kDropIndex d3 VNull VNull d4)
  | 110 => Some (obj CAlterStatement [(F_schema, fget F_schema d4); (F_ifTableExists, d3); (F_name, fget F_name d4);
                                      (F_action, d5)])
  | 112 => Some (obj CDropColumnAction [(F_columnName, d4); (F_ifExists, d3)])
  | 113 => Some (obj CDeleteStatement [(F_schema, fget F_schema d3); (F_tableName, fget F_name d3); (F_expr, d4)])
  | 114 => Some (obj CDeleteStatement [(F_schema, fget F_schema d2); (F_tableName, fget F_name d2)])
  | 115 => Some (obj CInsertStatement [(F_type, kInsertValues); (F_schema, fget F_schema d3);
                                       (F_tableName, fget F_name d3); (F_columns, d4); (F_values, d7)])
  | 116 => Some (obj CInsertStatement [(F_type, kInsertSelect); (F_schema, fget F_schema d3);
                                       (F_tableName, fget F_name d3); (F_columns, d4); (F_select, d5)])
  | 117 => Some d2
  | 119 => Some (obj CUpdateStatement [(F_table, d2); (F_updates, d4); (F_where, d5)])
  | 122 => Some (obj CUpdateClause [(F_column, d1); (F_value, d3)])
  (* select *)
  | 123 | 124 => Some (with_ [(F_withDescriptions, d1)] d2)
  | 125 => Some (with_ [(F_withDescriptions, d1)] (set_op d2 d3 d4 d5 d6))
  | 129 => Some (set_op d1 d2 d3 VNull VNull)
  | 130 | 131 => Some d2
  | 132 => Some (with_ [(F_order, d2); (F_limit, if isnull d3 then fget F_limit d1 else d3); (F_lockings, d4)] d1)
  | 133 => Some (with_ [(F_lockings, d6)] (set_op d1 d2 d3 d4 d5))
  | 134 => Some (with_ [(F_isAll, d2)] d1)
  | 135 => Some (set_type kSetUnion)
  | 136 => Some (set_type kSetIntersect)
  | 137 => Some (set_type kSetExcept)
  | 140 => Some (obj CSelectStatement [(F_limit, d2); (F_selectDistinct, d3); (F_selectList, d4); (F_fromTable, d5);
                                       (F_whereClause, d6); (F_groupBy, d7)])
  | 146 | 147 | 151 => Some d2
  | 149 => Some (obj CGroupByDescription [(F_columns, d3); (F_having, d4)])
  | 153 => Some d3
  | 157 => Some (obj COrderDescription [(F_type, d2); (F_expr, d1); (F_null_ordering, d3)])
  | 158 | 160 => Some kOrderAsc
  | 159 => Some kOrderDesc
  | 161 => Some NullOrdering_Undefined
  | 162 => null_ordering (text d1) (text d2)
  | 163 | 165 => Some (limit d2 VNull)
  | 166 => Some (limit VNull d2)
  | 167 => Some (limit d2 d4)
  | 168 => Some (limit VNull VNull)
  | 169 => Some (limit VNull d4)
  (* literals in lists *)
  | 178 => Some (cast d3 d5)
  | 179 => if is_enum (fget F_type d1) kExprParameter then None else Some d1
  | 180 | 181 => Some (unop kOpUnaryMinus d2)
  | 182 => Some (if isnull d2 then d1 else with_ [(F_alias, fget F_name d2)] d1)
  (* expressions *)
  | 188 => Some d2
  | 198 => Some (expr kExprSelect [(F_select, d2)])
  | 201 => Some (unop kOpUnaryMinus d2)
  | 202 => Some (unop kOpNot d2)
  | 203 | 204 => Some (unop kOpIsNull d1)
  | 205 => Some (unop kOpNot (unop kOpIsNull d1))
  | 207 => Some (binop d1 kOpMinus d3)
  | 208 => Some (binop d1 kOpPlus d3)
  | 209 => Some (binop d1 kOpSlash d3)
  | 210 => Some (binop d1 kOpAsterisk d3)
  | 211 => Some (binop d1 kOpPercentage d3)
  | 212 => Some (binop d1 kOpCaret d3)
  | 213 => Some (binop d1 kOpLike d3)
  | 214 => Some (binop d1 kOpNotLike d4)
  | 215 => Some (binop d1 kOpILike d3)
  | 216 => Some (binop d1 kOpConcat d3)
  | 217 => Some (binop d1 kOpAnd d3)
  | 218 => Some (binop d1 kOpOr d3)
  | 219 => Some (in_list d1 d4)
  | 220 => Some (unop kOpNot (in_list d1 d5))
  | 221 => Some (in_select d1 d4)
  | 222 => Some (unop kOpNot (in_select d1 d5))
  | 223 => Some (case_of d2 d3 VNull)
  | 224 => Some (case_of d2 d3 d5)
  | 225 => Some (case_of VNull d2 VNull)
  | 226 => Some (case_of VNull d2 d4)
  | 227 => Some (expr kExprOperator [(F_exprList, vec [case_elem d2 d4])])
  | 228 => Some (with_ [(F_exprList, snoc (fget F_exprList d1) (case_elem d3 d5))] d1)
  | 229 => Some (exists_ d3)
  | 230 => Some (unop kOpNot (exists_ d4))
  | 231 | 232 => Some (binop d1 kOpEquals d3)
  | 233 => Some (binop d1 kOpNotEquals d3)
  | 234 => Some (binop d1 kOpLess d3)
  | 235 => Some (binop d1 kOpGreater d3)
  | 236 => Some (binop d1 kOpLessEq d3)
  | 237 => Some (binop d1 kOpGreaterEq d3)
  | 238 => Some (func VNull d1 (vec []) (VBool false) d4)
  | 239 => Some (func VNull d1 d4 d3 d6)
  | 240 => Some (func d1 d3 (vec []) (VBool false) d6)
  | 241 => Some (func d1 d3 d6 d5 d8)
  | 242 => Some (obj CWindowDescription [(F_partitionList, d3); (F_orderList, d4); (F_frameDescription, d5)])
  | 244 => Some d3
  | 246 => Some (frame d1 d2 current_row)
  | 247 => Some (frame d1 d3 d5)
  | 248 => Some (frame kRange (bound 0 kPreceding true) current_row)
  | 249 => Some kRange
  | 250 => Some kRows
  | 251 => Some kGroups
  | 252 => Some (bound 0 kPreceding true)
  | 253 => Some (bound (num d1) kPreceding false)
  | 254 => Some (bound 0 kFollowing true)
  | 255 => Some (bound (num d1) kFollowing false)
  | 256 => Some current_row
  | 257 => Some (expr kExprExtract [(F_datetimeField, d3); (F_expr, d5)])
  | 258 => Some (cast d3 d5)
  | 259 | 265 => Some kDatetimeSecond
  | 260 | 266 => Some kDatetimeMinute
  | 261 | 267 => Some kDatetimeHour
  | 262 | 268 => Some kDatetimeDay
  | 263 | 269 => Some kDatetimeMonth
  | 264 | 270 => Some kDatetimeYear
  | 273 => Some (expr kExprArray [(F_exprList, d3)])
  | 274 => Some (expr kExprArrayIndex [(F_expr, d1); (F_ival, fget F_ival d3)])
  | 275 => Some (expr kExprOperator [(F_opType, kOpBetween); (F_expr, d1); (F_exprList, vec [d3; d5])])
  | 276 => Some (expr kExprColumnRef [(F_name, d1)])
  | 277 => Some (expr kExprColumnRef [(F_table, d1); (F_name, d3)])
  | 278 => Some (expr kExprStar [])
  | 279 => Some (expr kExprStar [(F_table, d1)])
  | 287 => Some (expr kExprLiteralString [(F_name, d1)])
  | 288 => Some (bool_lit true)
  | 289 => Some (bool_lit false)
  | 290 => Some (expr kExprLiteralFloat [(F_fval, d1)])
  | 292 => Some (int_lit (num d1))
  | 293 => Some (expr kExprLiteralNull [])
  | 294 => if scan_date (text d2) then Some (expr kExprLiteralDate [(F_name, d2)]) else None
  | 295 => Some (interval (num d1) d2)
  | 296 => match scan_interval1 (text d2) with SYes n _ => Some (interval n d3) | _ => None end
  | 297 => match scan_interval2 (text d2) with
           | SYes n u => match unit_of u with Some f => Some (interval n f) | None => None end
           | _ => None
           end
  | 298 => Some (expr kExprParameter [(F_ival, VInt (Z.of_nat k)); (F_ival2, VInt (Z.of_nat k))])
  (* tables *)
  | 300 => Some (obj CTableRef [(F_type, kTableCrossProduct); (F_list, snoc d1 d3)])
  | 304 => Some (obj CTableRef [(F_type, kTableSelect); (F_select, d2); (F_alias, d4)])
  | 307 => Some (table_ref d1 d2)
  | 308 => Some (table_ref d1 VNull)
  | 309 => Some (mk_table_name VNull d1)
  | 310 => Some (mk_table_name d1 d3)
  | 314 => Some (obj CAlias [(F_name, d2); (F_columns, d4)])
  | 317 => Some (obj CAlias [(F_name, d2)])
  | 318 => Some (obj CAlias [(F_name, d1)])
  | 325 => Some (obj CLockingClause [(F_rowLockMode, d2); (F_rowLockWaitPolicy, d3)])
  | 326 => Some (obj CLockingClause [(F_rowLockMode, d2); (F_tables, d4); (F_rowLockWaitPolicy, d5)])
  | 327 => Some ForUpdate
  | 328 => Some ForNoKeyUpdate
  | 329 => Some ForShare
  | 330 => Some ForKeyShare
  | 331 => Some SkipLocked
  | 332 => Some NoWait
  | 333 => Some LockNone
  | 336 => Some d2
  | 339 => Some (obj CWithDescription [(F_alias, d1); (F_select, d3)])
  | 340 => Some (join kJoinNatural d1 d4 VNull VNull)
  | 341 => Some (join d2 d1 d4 d6 VNull)
  | 342 => Some (join d2 d1 d4 VNull d7)
  | 343 | 352 => Some kJoinInner
  | 344 | 345 => Some kJoinLeft
  | 346 | 347 => Some kJoinRight
  | 348 | 349 | 350 => Some kJoinFull
  | 351 => Some kJoinCross
  (* all other productions pass on the value of their first symbol *)
  | _ => Some d1
  end.

(** The value of a token. *)
Definition token_val (t : token) : val :=
  match t_val t with TVNone => VUninit | TVStr s => VStr 0 s | TVInt z => VInt z | TVFlt f => VFlt f end.

(** The value of a derivation tree, given the number of parameters to its left; and the number including its own. *)
Fixpoint sem (t : tree) (k : nat) : option (val * nat) :=
  match t with
  | Leaf tk => Some (token_val tk, k)
  | Node r ts =>
    match (fix go (ts : list tree) (k : nat) : option (list val * nat) :=
             match ts with
             | [] => Some ([], k)
             | t :: ts' =>
               match sem t k with
               | None => None
               | Some (v, k1) => match go ts' k1 with Some (vs, k2) => Some (v :: vs, k2) | None => None end
               end
             end) ts k with
    | None => None
    | Some (vs, k') => match asem r k' vs with
                       | Some v => Some (v, if N.eqb r 298 then S k' else k')
                       | None => None
                       end
    end
  end.
Fixpoint sems (ts : list tree) (k : nat) : option (list val * nat) :=
  match ts with
  | [] => Some ([], k)
  | t :: ts' =>
    match sem t k with
    | None => None
    | Some (v, k1) => match sems ts' k1 with Some (vs, k2) => Some (v :: vs, k2) | None => None end
    end
  end.
