(** C++ values as seen by the parser: scalars, C strings, vectors and objects with their heap addresses.
    Classes, fields and enumerators follow /repo/src/sql/*.h; every definition cites the header it copies. *)
From Verif Require Import Base.
Local Open Scope N_scope.

(** Enumeration types (one constructor per C++ enum). *)
Inductive enumt :=
| EExprType | EOperatorType | EDatetimeField | EFrameBoundType | EFrameType | EStatementType | EOrderType
| ENullOrdering | ESetType | ERowLockMode | ERowLockWaitPolicy | ETableRefType | EJoinType | EConstraintType
| ECreateType | EImportType | ECsvOptionType | EActionType | EInsertType | EShowType | EDropType
| ETransactionCommand | EDataType.

(** Classes whose instances are allocated with new. *)
Inductive cls :=
| CExpr | CFrameBound | CFrameDescription | CWindowDescription          (* Expr.h *)
| CAlias | CTableRef | CJoinDefinition                                   (* Table.h *)
| COrderDescription | CLimitDescription | CGroupByDescription | CWithDescription | CSetOperation | CLockingClause
| CSelectStatement                                                       (* SelectStatement.h *)
| CCreateStatement | CColumnDefinition | CTableConstraint | CForeignKeyConstraint | CReferencesSpecification
| CColumnConstraints                                                     (* CreateStatement.h *)
| CInsertStatement | CDeleteStatement | CUpdateStatement | CUpdateClause | CDropStatement | CAlterStatement
| CDropColumnAction | CPrepareStatement | CExecuteStatement | CExportStatement | CImportStatement | CShowStatement
| CTransactionStatement                                                  (* the other *Statement.h *)
| CCsvOptions | CImportExportOptions                                     (* ImportExportOptions.h *)
| CPairInt                                                               (* std::pair<int64_t, int64_t> *)
| CPairCsv.                                                              (* std::pair<CsvOptionType, char*> *)

(** Member names. *)
Inductive fld :=
| F_type | F_expr | F_expr2 | F_exprList | F_select | F_name | F_table | F_schema | F_alias | F_fval | F_ival | F_ival2
| F_datetimeField | F_columnType | F_isBoolLiteral | F_opType | F_distinct | F_windowDescription
| F_offset | F_unbounded | F_start | F_end | F_partitionList | F_orderList | F_frameDescription
| F_columns | F_list | F_join | F_left | F_right | F_condition | F_namedColumns
| F_null_ordering | F_limit | F_having | F_setType | F_isAll | F_nestedSelectStatement | F_resultOrder | F_resultLimit
| F_rowLockMode | F_rowLockWaitPolicy | F_tables
| F_stringLength | F_hints | F_type_
| F_fromTable | F_selectDistinct | F_selectList | F_whereClause | F_groupBy | F_setOperations | F_order
| F_withDescriptions | F_lockings
| F_ifNotExists | F_filePath | F_tableName | F_indexName | F_indexColumns | F_tableConstraints | F_viewColumns
| F_column_constraints | F_nullable | F_references | F_columnNames | F_constraints
| F_values | F_updates | F_where | F_column | F_value | F_ifExists | F_ifTableExists | F_action | F_columnName
| F_query | F_parameters | F_encoding | F_csv_options | F_command
| F_delimiter | F_null | F_quote | F_format | F_first | F_second
| F_data_type | F_length | F_precision | F_scale.

(** Values.  [a] is the heap address of the block.
    [VRec]: by-value structs (TableName, ColumnType).  [VFlt t]: the double atof(t), kept symbolic.
    std::unordered_set<ConstraintType>* is a [VVec] without repetitions.  [VUninit]: indeterminate value. *)
Inductive val :=
| VNull
| VUninit
| VInt (z : Z)
| VBool (b : bool)
| VEnum (e : enumt) (n : N)
| VFlt (t : bytes)
| VStr (a : N) (s : bytes)
| VObj (a : N) (c : cls) (fs : list (fld * val))
| VVec (a : N) (l : list val)
| VRec (fs : list (fld * val)).

(** Decidable equality of [enumt], through a numbering (model infrastructure, no code of /repo). *)
Definition enumt_code (x : enumt) : N :=
  match x with
  | EExprType => 0 | EOperatorType => 1 | EDatetimeField => 2 | EFrameBoundType => 3 | EFrameType => 4
  | EStatementType => 5 | EOrderType => 6 | ENullOrdering => 7 | ESetType => 8 | ERowLockMode => 9
  | ERowLockWaitPolicy => 10 | ETableRefType => 11 | EJoinType => 12 | EConstraintType => 13 | ECreateType => 14
  | EImportType => 15 | ECsvOptionType => 16 | EActionType => 17 | EInsertType => 18 | EShowType => 19
  | EDropType => 20 | ETransactionCommand => 21 | EDataType => 22
  end.
Definition enumt_all : list enumt :=
  [EExprType; EOperatorType; EDatetimeField; EFrameBoundType; EFrameType; EStatementType; EOrderType;
   ENullOrdering; ESetType; ERowLockMode; ERowLockWaitPolicy; ETableRefType; EJoinType; EConstraintType;
   ECreateType; EImportType; ECsvOptionType; EActionType; EInsertType; EShowType; EDropType; ETransactionCommand;
   EDataType].
Definition enumt_beq (x y : enumt) : bool := N.eqb (enumt_code x) (enumt_code y).
Lemma enumt_beq_eq x y : enumt_beq x y = true -> x = y.
Proof.
  unfold enumt_beq. intro H. apply N.eqb_eq in H.
  assert (R : forall z, nth_error enumt_all (N.to_nat (enumt_code z)) = Some z) by (destruct z; reflexivity).
  pose proof (R x) as A. rewrite H, (R y) in A. congruence.
Qed.
Lemma enumt_beq_refl x : enumt_beq x x = true.
Proof. apply N.eqb_refl. Qed.
Definition enumt_eq_dec (x y : enumt) : {x = y} + {x <> y}.
Proof.
  destruct (enumt_beq x y) eqn:E; [left; now apply enumt_beq_eq | right; intros ->; rewrite enumt_beq_refl in E; discriminate].
Defined.

(** Decidable equality of [cls], through a numbering (model infrastructure, no code of /repo). *)
Definition cls_code (x : cls) : N :=
  match x with
  | CExpr => 0 | CFrameBound => 1 | CFrameDescription => 2 | CWindowDescription => 3 | CAlias => 4 | CTableRef => 5
  | CJoinDefinition => 6 | COrderDescription => 7 | CLimitDescription => 8 | CGroupByDescription => 9
  | CWithDescription => 10 | CSetOperation => 11 | CLockingClause => 12 | CSelectStatement => 13
  | CCreateStatement => 14 | CColumnDefinition => 15 | CTableConstraint => 16 | CForeignKeyConstraint => 17
  | CReferencesSpecification => 18 | CColumnConstraints => 19 | CInsertStatement => 20 | CDeleteStatement => 21
  | CUpdateStatement => 22 | CUpdateClause => 23 | CDropStatement => 24 | CAlterStatement => 25
  | CDropColumnAction => 26 | CPrepareStatement => 27 | CExecuteStatement => 28 | CExportStatement => 29
  | CImportStatement => 30 | CShowStatement => 31 | CTransactionStatement => 32 | CCsvOptions => 33
  | CImportExportOptions => 34 | CPairInt => 35 | CPairCsv => 36
  end.
Definition cls_all : list cls :=
  [CExpr; CFrameBound; CFrameDescription; CWindowDescription; CAlias; CTableRef; CJoinDefinition;
   COrderDescription; CLimitDescription; CGroupByDescription; CWithDescription; CSetOperation; CLockingClause;
   CSelectStatement; CCreateStatement; CColumnDefinition; CTableConstraint; CForeignKeyConstraint;
   CReferencesSpecification; CColumnConstraints; CInsertStatement; CDeleteStatement; CUpdateStatement;
   CUpdateClause; CDropStatement; CAlterStatement; CDropColumnAction; CPrepareStatement; CExecuteStatement;
   CExportStatement; CImportStatement; CShowStatement; CTransactionStatement; CCsvOptions; CImportExportOptions;
   CPairInt; CPairCsv].
Definition cls_beq (x y : cls) : bool := N.eqb (cls_code x) (cls_code y).
Lemma cls_beq_eq x y : cls_beq x y = true -> x = y.
Proof.
  unfold cls_beq. intro H. apply N.eqb_eq in H.
  assert (R : forall z, nth_error cls_all (N.to_nat (cls_code z)) = Some z) by (destruct z; reflexivity).
  pose proof (R x) as A. rewrite H, (R y) in A. congruence.
Qed.
Lemma cls_beq_refl x : cls_beq x x = true.
Proof. apply N.eqb_refl. Qed.
Definition cls_eq_dec (x y : cls) : {x = y} + {x <> y}.
Proof.
  destruct (cls_beq x y) eqn:E; [left; now apply cls_beq_eq | right; intros ->; rewrite cls_beq_refl in E; discriminate].
Defined.

(** Decidable equality of [fld], through a numbering (model infrastructure, no code of /repo). *)
Definition fld_code (x : fld) : N :=
  match x with
  | F_type => 0 | F_expr => 1 | F_expr2 => 2 | F_exprList => 3 | F_select => 4 | F_name => 5 | F_table => 6
  | F_schema => 7 | F_alias => 8 | F_fval => 9 | F_ival => 10 | F_ival2 => 11 | F_datetimeField => 12
  | F_columnType => 13 | F_isBoolLiteral => 14 | F_opType => 15 | F_distinct => 16 | F_windowDescription => 17
  | F_offset => 18 | F_unbounded => 19 | F_start => 20 | F_end => 21 | F_partitionList => 22 | F_orderList => 23
  | F_frameDescription => 24 | F_columns => 25 | F_list => 26 | F_join => 27 | F_left => 28 | F_right => 29
  | F_condition => 30 | F_namedColumns => 31 | F_null_ordering => 32 | F_limit => 33 | F_having => 34
  | F_setType => 35 | F_isAll => 36 | F_nestedSelectStatement => 37 | F_resultOrder => 38 | F_resultLimit => 39
  | F_rowLockMode => 40 | F_rowLockWaitPolicy => 41 | F_tables => 42 | F_stringLength => 43 | F_hints => 44
  | F_type_ => 45 | F_fromTable => 46 | F_selectDistinct => 47 | F_selectList => 48 | F_whereClause => 49
  | F_groupBy => 50 | F_setOperations => 51 | F_order => 52 | F_withDescriptions => 53 | F_lockings => 54
  | F_ifNotExists => 55 | F_filePath => 56 | F_tableName => 57 | F_indexName => 58 | F_indexColumns => 59
  | F_tableConstraints => 60 | F_viewColumns => 61 | F_column_constraints => 62 | F_nullable => 63
  | F_references => 64 | F_columnNames => 65 | F_constraints => 66 | F_values => 67 | F_updates => 68
  | F_where => 69 | F_column => 70 | F_value => 71 | F_ifExists => 72 | F_ifTableExists => 73 | F_action => 74
  | F_columnName => 75 | F_query => 76 | F_parameters => 77 | F_encoding => 78 | F_csv_options => 79
  | F_command => 80 | F_delimiter => 81 | F_null => 82 | F_quote => 83 | F_format => 84 | F_first => 85
  | F_second => 86 | F_data_type => 87 | F_length => 88 | F_precision => 89 | F_scale => 90
  end.
Definition fld_all : list fld :=
  [F_type; F_expr; F_expr2; F_exprList; F_select; F_name; F_table; F_schema; F_alias; F_fval; F_ival; F_ival2;
   F_datetimeField; F_columnType; F_isBoolLiteral; F_opType; F_distinct; F_windowDescription; F_offset;
   F_unbounded; F_start; F_end; F_partitionList; F_orderList; F_frameDescription; F_columns; F_list; F_join;
   F_left; F_right; F_condition; F_namedColumns; F_null_ordering; F_limit; F_having; F_setType; F_isAll;
   F_nestedSelectStatement; F_resultOrder; F_resultLimit; F_rowLockMode; F_rowLockWaitPolicy; F_tables;
   F_stringLength; F_hints; F_type_; F_fromTable; F_selectDistinct; F_selectList; F_whereClause; F_groupBy;
   F_setOperations; F_order; F_withDescriptions; F_lockings; F_ifNotExists; F_filePath; F_tableName; F_indexName;
   F_indexColumns; F_tableConstraints; F_viewColumns; F_column_constraints; F_nullable; F_references;
   F_columnNames; F_constraints; F_values; F_updates; F_where; F_column; F_value; F_ifExists; F_ifTableExists;
   F_action; F_columnName; F_query; F_parameters; F_encoding; F_csv_options; F_command; F_delimiter; F_null;
   F_quote; F_format; F_first; F_second; F_data_type; F_length; F_precision; F_scale].
Definition fld_beq (x y : fld) : bool := N.eqb (fld_code x) (fld_code y).
Lemma fld_beq_eq x y : fld_beq x y = true -> x = y.
Proof.
  unfold fld_beq. intro H. apply N.eqb_eq in H.
  assert (R : forall z, nth_error fld_all (N.to_nat (fld_code z)) = Some z) by (destruct z; reflexivity).
  pose proof (R x) as A. rewrite H, (R y) in A. congruence.
Qed.
Lemma fld_beq_refl x : fld_beq x x = true.
Proof. apply N.eqb_refl. Qed.
Definition fld_eq_dec (x y : fld) : {x = y} + {x <> y}.
Proof.
  destruct (fld_beq x y) eqn:E; [left; now apply fld_beq_eq | right; intros ->; rewrite fld_beq_refl in E; discriminate].
Defined.

(** ExprType, Expr.h:17-35. *)
Definition kExprLiteralFloat := VEnum EExprType 0.
Definition kExprLiteralString := VEnum EExprType 1.
Definition kExprLiteralInt := VEnum EExprType 2.
Definition kExprLiteralNull := VEnum EExprType 3.
Definition kExprLiteralDate := VEnum EExprType 4.
Definition kExprLiteralInterval := VEnum EExprType 5.
Definition kExprStar := VEnum EExprType 6.
Definition kExprParameter := VEnum EExprType 7.
Definition kExprColumnRef := VEnum EExprType 8.
Definition kExprFunctionRef := VEnum EExprType 9.
Definition kExprOperator := VEnum EExprType 10.
Definition kExprSelect := VEnum EExprType 11.
Definition kExprHint := VEnum EExprType 12.
Definition kExprArray := VEnum EExprType 13.
Definition kExprArrayIndex := VEnum EExprType 14.
Definition kExprExtract := VEnum EExprType 15.
Definition kExprCast := VEnum EExprType 16.

(** OperatorType, Expr.h:38-75. *)
Definition kOpNone := VEnum EOperatorType 0.
Definition kOpBetween := VEnum EOperatorType 1.
Definition kOpCase := VEnum EOperatorType 2.
Definition kOpCaseListElement := VEnum EOperatorType 3.
Definition kOpPlus := VEnum EOperatorType 4.
Definition kOpMinus := VEnum EOperatorType 5.
Definition kOpAsterisk := VEnum EOperatorType 6.
Definition kOpSlash := VEnum EOperatorType 7.
Definition kOpPercentage := VEnum EOperatorType 8.
Definition kOpCaret := VEnum EOperatorType 9.
Definition kOpEquals := VEnum EOperatorType 10.
Definition kOpNotEquals := VEnum EOperatorType 11.
Definition kOpLess := VEnum EOperatorType 12.
Definition kOpLessEq := VEnum EOperatorType 13.
Definition kOpGreater := VEnum EOperatorType 14.
Definition kOpGreaterEq := VEnum EOperatorType 15.
Definition kOpLike := VEnum EOperatorType 16.
Definition kOpNotLike := VEnum EOperatorType 17.
Definition kOpILike := VEnum EOperatorType 18.
Definition kOpAnd := VEnum EOperatorType 19.
Definition kOpOr := VEnum EOperatorType 20.
Definition kOpIn := VEnum EOperatorType 21.
Definition kOpConcat := VEnum EOperatorType 22.
Definition kOpNot := VEnum EOperatorType 23.
Definition kOpUnaryMinus := VEnum EOperatorType 24.
Definition kOpIsNull := VEnum EOperatorType 25.
Definition kOpExists := VEnum EOperatorType 26.

(** DatetimeField, Expr.h:77-85. *)
Definition kDatetimeNone := VEnum EDatetimeField 0.
Definition kDatetimeSecond := VEnum EDatetimeField 1.
Definition kDatetimeMinute := VEnum EDatetimeField 2.
Definition kDatetimeHour := VEnum EDatetimeField 3.
Definition kDatetimeDay := VEnum EDatetimeField 4.
Definition kDatetimeMonth := VEnum EDatetimeField 5.
Definition kDatetimeYear := VEnum EDatetimeField 6.

(** FrameBoundType, FrameType: Expr.h:88, 97. *)
Definition kFollowing := VEnum EFrameBoundType 0.
Definition kPreceding := VEnum EFrameBoundType 1.
Definition kCurrentRow := VEnum EFrameBoundType 2.
Definition kRange := VEnum EFrameType 0.
Definition kRows := VEnum EFrameType 1.
Definition kGroups := VEnum EFrameType 2.

(** StatementType, SQLStatement.h:9-25. *)
Definition kStmtSelect := VEnum EStatementType 1.
Definition kStmtImport := VEnum EStatementType 2.
Definition kStmtInsert := VEnum EStatementType 3.
Definition kStmtUpdate := VEnum EStatementType 4.
Definition kStmtDelete := VEnum EStatementType 5.
Definition kStmtCreate := VEnum EStatementType 6.
Definition kStmtDrop := VEnum EStatementType 7.
Definition kStmtPrepare := VEnum EStatementType 8.
Definition kStmtExecute := VEnum EStatementType 9.
Definition kStmtExport := VEnum EStatementType 10.
Definition kStmtAlter := VEnum EStatementType 12.
Definition kStmtShow := VEnum EStatementType 13.
Definition kStmtTransaction := VEnum EStatementType 14.

(** SelectStatement.h:9-15. *)
Definition kOrderAsc := VEnum EOrderType 0.
Definition kOrderDesc := VEnum EOrderType 1.
Definition NullOrdering_Undefined := VEnum ENullOrdering 0.
Definition NullOrdering_First := VEnum ENullOrdering 1.
Definition NullOrdering_Last := VEnum ENullOrdering 2.
Definition kSetUnion := VEnum ESetType 0.
Definition kSetIntersect := VEnum ESetType 1.
Definition kSetExcept := VEnum ESetType 2.
Definition ForUpdate := VEnum ERowLockMode 0.
Definition ForNoKeyUpdate := VEnum ERowLockMode 1.
Definition ForShare := VEnum ERowLockMode 2.
Definition ForKeyShare := VEnum ERowLockMode 3.
Definition NoWait := VEnum ERowLockWaitPolicy 0.
Definition SkipLocked := VEnum ERowLockWaitPolicy 1.
Definition LockNone := VEnum ERowLockWaitPolicy 2.

(** Table.h:15, 55. *)
Definition kTableName := VEnum ETableRefType 0.
Definition kTableSelect := VEnum ETableRefType 1.
Definition kTableJoin := VEnum ETableRefType 2.
Definition kTableCrossProduct := VEnum ETableRefType 3.
Definition kJoinInner := VEnum EJoinType 0.
Definition kJoinFull := VEnum EJoinType 1.
Definition kJoinLeft := VEnum EJoinType 2.
Definition kJoinRight := VEnum EJoinType 3.
Definition kJoinCross := VEnum EJoinType 4.
Definition kJoinNatural := VEnum EJoinType 5.

(** CreateStatement.h:13, 69-74. *)
Definition ForeignKey := VEnum EConstraintType 0.
Definition NotNull := VEnum EConstraintType 1.
Definition CNull := VEnum EConstraintType 2.
Definition PrimaryKey := VEnum EConstraintType 3.
Definition Unique := VEnum EConstraintType 4.
Definition kCreateTable := VEnum ECreateType 0.
Definition kCreateTableFromTbl := VEnum ECreateType 1.
Definition kCreateView := VEnum ECreateType 2.
Definition kCreateIndex := VEnum ECreateType 3.

(** ImportExportOptions.h:11-22. *)
Definition kImportCSV := VEnum EImportType 0.
Definition kImportTbl := VEnum EImportType 1.
Definition kImportBinary := VEnum EImportType 2.
Definition kImportAuto := VEnum EImportType 3.
Definition CsvDelimiter := VEnum ECsvOptionType 0.
Definition CsvNull := VEnum ECsvOptionType 1.
Definition CsvQuote := VEnum ECsvOptionType 2.

(** AlterStatement.h:9; InsertStatement.h:8; ShowStatement.h:9; DropStatement.h:9; TransactionStatement.h:10. *)
Definition ActionDropColumn := VEnum EActionType 0.
Definition kInsertValues := VEnum EInsertType 0.
Definition kInsertSelect := VEnum EInsertType 1.
Definition kShowColumns := VEnum EShowType 0.
Definition kShowTables := VEnum EShowType 1.
Definition kDropTable := VEnum EDropType 0.
Definition kDropIndex := VEnum EDropType 2.
Definition kDropView := VEnum EDropType 3.
Definition kDropPreparedStatement := VEnum EDropType 4.
Definition kBeginTransaction := VEnum ETransactionCommand 0.
Definition kCommitTransaction := VEnum ETransactionCommand 1.
Definition kRollbackTransaction := VEnum ETransactionCommand 2.

(** DataType, ColumnType.h:8-25. *)
Definition DT_UNKNOWN := VEnum EDataType 0.
Definition DT_BIGINT := VEnum EDataType 1.
Definition DT_BOOLEAN := VEnum EDataType 2.
Definition DT_CHAR := VEnum EDataType 3.
Definition DT_DATE := VEnum EDataType 4.
Definition DT_DATETIME := VEnum EDataType 5.
Definition DT_DECIMAL := VEnum EDataType 6.
Definition DT_DOUBLE := VEnum EDataType 7.
Definition DT_FLOAT := VEnum EDataType 8.
Definition DT_INT := VEnum EDataType 9.
Definition DT_LONG := VEnum EDataType 10.
Definition DT_REAL := VEnum EDataType 11.
Definition DT_SMALLINT := VEnum EDataType 12.
Definition DT_TEXT := VEnum EDataType 13.
Definition DT_TIME := VEnum EDataType 14.
Definition DT_VARCHAR := VEnum EDataType 15.

(** Equality of two enumerator values (the C++ comparisons ==, != between enumerators of one type). *)
Definition enum_is (v w : val) : bool :=
  match v, w with
  | VEnum e n, VEnum e' n' => enumt_beq e e' && N.eqb n n'
  | _, _ => false
  end.

(** Member lookup / update in a field list. *)
Fixpoint lookup (f : fld) (fs : list (fld * val)) : option val :=
  match fs with
  | [] => None
  | (g, v) :: fs' => if fld_beq f g then Some v else lookup f fs'
  end.
Fixpoint update (f : fld) (x : val) (fs : list (fld * val)) : list (fld * val) :=
  match fs with
  | [] => []
  | (g, v) :: fs' => if fld_beq f g then (g, x) :: fs' else (g, v) :: update f x fs'
  end.

(** ColumnType{t, length, precision, scale}, ColumnType.h:28-35, statements.cpp:10-11. *)
Definition mk_column_type (t : val) (len prec scale : Z) : val :=
  VRec [(F_data_type, t); (F_length, VInt len); (F_precision, VInt prec); (F_scale, VInt scale)].
(** TableName, Table.h:17-20. *)
Definition mk_table_name (schema name : val) : val := VRec [(F_schema, schema); (F_name, name)].

(** Field values right after construction (member initialisers of the constructors). *)

(** Expr::Expr, Expr.cpp:44-62. *)
Definition init_Expr (type : val) : list (fld * val) :=
  [(F_type, type); (F_expr, VNull); (F_expr2, VNull); (F_exprList, VNull); (F_select, VNull); (F_name, VNull);
   (F_table, VNull); (F_schema, VNull); (F_alias, VNull); (F_fval, VFlt (la "0")); (F_ival, VInt 0); (F_ival2, VInt 0);
   (F_datetimeField, kDatetimeNone); (F_columnType, mk_column_type DT_UNKNOWN 0 0 0); (F_isBoolLiteral, VBool false);
   (F_opType, kOpNone); (F_distinct, VBool false); (F_windowDescription, VNull)].
(** SQLStatement::SQLStatement, SQLStatement.cpp:7: stringLength is left indeterminate. *)
Definition init_SQLStatement (t : val) : list (fld * val) :=
  [(F_stringLength, VUninit); (F_hints, VNull); (F_type_, t)].
(** SelectStatement::SelectStatement, statements.cpp:288-299. *)
Definition init_SelectStatement : list (fld * val) :=
  init_SQLStatement kStmtSelect ++
  [(F_fromTable, VNull); (F_selectDistinct, VBool false); (F_selectList, VNull); (F_whereClause, VNull);
   (F_groupBy, VNull); (F_setOperations, VNull); (F_order, VNull); (F_withDescriptions, VNull); (F_limit, VNull);
   (F_lockings, VNull)].
(** CreateStatement::CreateStatement, CreateStatement.cpp:89-101. *)
Definition init_CreateStatement (type : val) : list (fld * val) :=
  init_SQLStatement kStmtCreate ++
  [(F_type, type); (F_ifNotExists, VBool false); (F_filePath, VNull); (F_schema, VNull); (F_tableName, VNull);
   (F_indexName, VNull); (F_indexColumns, VNull); (F_columns, VNull); (F_tableConstraints, VNull);
   (F_viewColumns, VNull); (F_select, VNull)].
(** statements.cpp:77 *)
Definition init_DeleteStatement : list (fld * val) :=
  init_SQLStatement kStmtDelete ++ [(F_schema, VNull); (F_tableName, VNull); (F_expr, VNull)].
(** statements.cpp:86-87: ifExists is left indeterminate. *)
Definition init_DropStatement (type : val) : list (fld * val) :=
  init_SQLStatement kStmtDrop ++
  [(F_type, type); (F_ifExists, VUninit); (F_schema, VNull); (F_name, VNull); (F_indexName, VNull)].
(** statements.cpp:101-102 *)
Definition init_DropColumnAction (column_name : val) : list (fld * val) :=
  [(F_type, ActionDropColumn); (F_columnName, column_name); (F_ifExists, VBool false)].
(** statements.cpp:106-107 *)
Definition init_AlterStatement (name action : val) : list (fld * val) :=
  init_SQLStatement kStmtAlter ++
  [(F_schema, VNull); (F_ifTableExists, VBool false); (F_name, name); (F_action, action)].
(** statements.cpp:116-117 *)
Definition init_TransactionStatement (command : val) : list (fld * val) :=
  init_SQLStatement kStmtTransaction ++ [(F_command, command)].
(** statements.cpp:122 *)
Definition init_ExecuteStatement : list (fld * val) :=
  init_SQLStatement kStmtExecute ++ [(F_name, VNull); (F_parameters, VNull)].
(** statements.cpp:136-144 *)
Definition init_ExportStatement (type : val) : list (fld * val) :=
  init_SQLStatement kStmtExport ++
  [(F_type, type); (F_filePath, VNull); (F_schema, VNull); (F_tableName, VNull); (F_select, VNull);
   (F_encoding, VNull); (F_csv_options, VNull)].
(** statements.cpp:155 *)
Definition init_CsvOptions : list (fld * val) := [(F_delimiter, VNull); (F_null, VNull); (F_quote, VNull)].
(** statements.cpp:187 *)
Definition init_ImportExportOptions : list (fld * val) :=
  [(F_format, kImportAuto); (F_encoding, VNull); (F_csv_options, VNull)].
(** statements.cpp:195-203 *)
Definition init_ImportStatement (type : val) : list (fld * val) :=
  init_SQLStatement kStmtImport ++
  [(F_type, type); (F_filePath, VNull); (F_schema, VNull); (F_tableName, VNull); (F_whereClause, VNull);
   (F_encoding, VNull); (F_csv_options, VNull)].
(** statements.cpp:215-222 *)
Definition init_InsertStatement (type : val) : list (fld * val) :=
  init_SQLStatement kStmtInsert ++
  [(F_type, type); (F_schema, VNull); (F_tableName, VNull); (F_columns, VNull); (F_values, VNull); (F_select, VNull)].
(** statements.cpp:245 *)
Definition init_ShowStatement (type : val) : list (fld * val) :=
  init_SQLStatement kStmtShow ++ [(F_type, type); (F_schema, VNull); (F_name, VNull)].
(** PrepareStatement.cpp:6 *)
Definition init_PrepareStatement : list (fld * val) :=
  init_SQLStatement kStmtPrepare ++ [(F_name, VNull); (F_query, VNull)].
(** statements.cpp:351 *)
Definition init_UpdateStatement : list (fld * val) :=
  init_SQLStatement kStmtUpdate ++ [(F_table, VNull); (F_updates, VNull); (F_where, VNull)].
(** UpdateClause has no constructor: "new UpdateClause()" zero-initialises.  UpdateStatement.h:9-12. *)
Definition init_UpdateClause : list (fld * val) := [(F_column, VNull); (F_value, VNull)].
(** statements.cpp:255-256 *)
Definition init_OrderDescription (type expr null_ordering : val) : list (fld * val) :=
  [(F_type, type); (F_expr, expr); (F_null_ordering, null_ordering)].
(** statements.cpp:261 *)
Definition init_LimitDescription (limit offset : val) : list (fld * val) := [(F_limit, limit); (F_offset, offset)].
(** statements.cpp:269 *)
Definition init_GroupByDescription : list (fld * val) := [(F_columns, VNull); (F_having, VNull)].
(** WithDescription has no user-provided constructor: "new WithDescription()" zero-initialises.
    SelectStatement.h:45-50. *)
Definition init_WithDescription : list (fld * val) := [(F_alias, VNull); (F_select, VNull)].
(** statements.cpp:426: setType and isAll are left indeterminate. *)
Definition init_SetOperation : list (fld * val) :=
  [(F_setType, VUninit); (F_isAll, VUninit); (F_nestedSelectStatement, VNull); (F_resultOrder, VNull);
   (F_resultLimit, VNull)].
(** LockingClause has no constructor: "new LockingClause()" zero-initialises.  SelectStatement.h:64-68. *)
Definition init_LockingClause : list (fld * val) :=
  [(F_rowLockMode, ForUpdate); (F_rowLockWaitPolicy, NoWait); (F_tables, VNull)].
(** statements.cpp:368 *)
Definition init_Alias (name columns : val) : list (fld * val) := [(F_name, name); (F_columns, columns)].
(** statements.cpp:381-382 *)
Definition init_TableRef (type : val) : list (fld * val) :=
  [(F_type, type); (F_schema, VNull); (F_name, VNull); (F_alias, VNull); (F_select, VNull); (F_list, VNull);
   (F_join, VNull)].
(** statements.cpp:410-411 *)
Definition init_JoinDefinition : list (fld * val) :=
  [(F_left, VNull); (F_right, VNull); (F_condition, VNull); (F_namedColumns, VNull); (F_type, kJoinInner)].
(** Expr.cpp:11-12 *)
Definition init_FrameBound (offset : Z) (type : val) (unbounded : bool) : list (fld * val) :=
  [(F_offset, VInt offset); (F_type, type); (F_unbounded, VBool unbounded)].
(** Expr.cpp:14-15 *)
Definition init_FrameDescription (type start end_ : val) : list (fld * val) :=
  [(F_type, type); (F_start, start); (F_end, end_)].
(** Expr.cpp:22-24 *)
Definition init_WindowDescription (p o f : val) : list (fld * val) :=
  [(F_partitionList, p); (F_orderList, o); (F_frameDescription, f)].
(** CreateStatement.cpp:28-29 *)
Definition init_TableConstraint (type columnNames : val) : list (fld * val) :=
  [(F_type, type); (F_columnNames, columnNames)].
(** CreateStatement.cpp:39-40 *)
Definition init_ReferencesSpecification (schema table columns : val) : list (fld * val) :=
  [(F_schema, schema); (F_table, table); (F_columns, columns)].
(** CreateStatement.cpp:53-54 *)
Definition init_ForeignKeyConstraint (columnNames references : val) : list (fld * val) :=
  [(F_type, ForeignKey); (F_columnNames, columnNames); (F_references, references)].
(** CreateStatement.cpp:62-64 *)
Definition init_ColumnDefinition (name type column_constraints references : val) : list (fld * val) :=
  [(F_column_constraints, column_constraints); (F_name, name); (F_type, type); (F_nullable, VBool true);
   (F_references, references)].

(** What a destructor does with a member. *)
Inductive how :=
| HNone       (* nothing: scalar, or not owned / forgotten *)
| HFree       (* free(member) *)
| HDel        (* delete member *)
| HVecDel     (* if (member) { for (x : *member) delete x;  delete member; } *)
| HVecFree    (* if (member) { for (x : *member) free(x);   delete member; } *)
| HVecFree1   (* for (x : *member) free(x); delete member;      -- without null check *)
| HVecPlain   (* delete member, elements are scalars *)
| HLockings   (* statements.cpp:337-347 *)
| HUpdates.   (* statements.cpp:357-364 *)

(** Destructors, per class and member.
    SQLStatement.cpp:9-16; statements.cpp; CreateStatement.cpp; Expr.cpp; PrepareStatement.cpp:8-11. *)
Definition dtor_how (c : cls) (f : fld) : how :=
  match c, f with
  (* SQLStatement::~SQLStatement (every statement class), SQLStatement.cpp:9-16 *)
  | (CSelectStatement | CCreateStatement | CInsertStatement | CDeleteStatement | CUpdateStatement | CDropStatement
     | CAlterStatement | CPrepareStatement | CExecuteStatement | CExportStatement | CImportStatement | CShowStatement
     | CTransactionStatement), F_hints => HVecDel
  (* Expr::~Expr, Expr.cpp:64-81 *)
  | CExpr, (F_expr | F_expr2 | F_select | F_windowDescription) => HDel
  | CExpr, (F_name | F_table | F_schema | F_alias) => HFree
  | CExpr, F_exprList => HVecDel
  (* FrameDescription, WindowDescription, Expr.cpp:17-20, 26-42 *)
  | CFrameDescription, (F_start | F_end) => HDel
  | CWindowDescription, (F_partitionList | F_orderList) => HVecDel
  | CWindowDescription, F_frameDescription => HDel
  (* Alias, TableRef, JoinDefinition, statements.cpp:370-378, 384-398, 413-424 *)
  | CAlias, F_name => HFree
  | CAlias, F_columns => HVecFree
  | CTableRef, (F_schema | F_name) => HFree
  | CTableRef, (F_select | F_join | F_alias) => HDel
  | CTableRef, F_list => HVecDel
  | CJoinDefinition, (F_left | F_right | F_condition) => HDel
  | CJoinDefinition, F_namedColumns => HVecFree
  (* statements.cpp:258, 263-266, 271-285, 428-438 *)
  | COrderDescription, F_expr => HDel
  | CLimitDescription, (F_limit | F_offset) => HDel
  | CGroupByDescription, F_having => HDel
  | CGroupByDescription, F_columns => HVecDel
  | CWithDescription, F_alias => HFree
  | CWithDescription, F_select => HDel
  | CSetOperation, (F_nestedSelectStatement | F_resultLimit) => HDel
  | CSetOperation, F_resultOrder => HVecDel
  (* SelectStatement::~SelectStatement, statements.cpp:301-348 *)
  | CSelectStatement, (F_fromTable | F_whereClause | F_groupBy | F_limit) => HDel
  | CSelectStatement, (F_selectList | F_order | F_withDescriptions | F_setOperations) => HVecDel
  | CSelectStatement, F_lockings => HLockings
  (* CreateStatement.cpp:31-36, 42-51, 56, 66-75, 103-137 *)
  | CTableConstraint, F_columnNames => HVecFree1
  | CForeignKeyConstraint, F_columnNames => HVecFree1
  | CForeignKeyConstraint, F_references => HDel
  | CReferencesSpecification, (F_schema | F_table) => HFree
  | CReferencesSpecification, F_columns => HVecFree
  | CColumnDefinition, F_name => HFree
  | CColumnDefinition, F_column_constraints => HVecPlain
  | CColumnDefinition, F_references => HVecDel
  | CCreateStatement, (F_filePath | F_schema | F_tableName | F_indexName) => HFree
  | CCreateStatement, F_select => HDel
  | CCreateStatement, (F_columns | F_tableConstraints) => HVecDel
  | CCreateStatement, (F_indexColumns | F_viewColumns) => HVecFree
  (* statements.cpp:79-83, 89-93, 104, 109-113, 124-133, 146-153, 156-160, 189-192, 205-212, 224-242, 247-250, 353-365 *)
  | CDeleteStatement, (F_schema | F_tableName) => HFree
  | CDeleteStatement, F_expr => HDel
  | CDropStatement, (F_schema | F_name | F_indexName) => HFree
  | CDropColumnAction, F_columnName => HFree
  | CAlterStatement, (F_schema | F_name) => HFree
  | CAlterStatement, F_action => HDel
  | CExecuteStatement, F_name => HFree
  | CExecuteStatement, F_parameters => HVecDel
  | CExportStatement, (F_filePath | F_schema | F_tableName | F_encoding) => HFree
  | CExportStatement, (F_select | F_csv_options) => HDel
  | CCsvOptions, (F_delimiter | F_null | F_quote) => HFree
  | CImportExportOptions, F_encoding => HFree
  | CImportExportOptions, F_csv_options => HDel
  | CImportStatement, (F_filePath | F_schema | F_tableName | F_encoding) => HFree
  | CImportStatement, (F_whereClause | F_csv_options) => HDel
  | CInsertStatement, (F_schema | F_tableName) => HFree
  | CInsertStatement, F_select => HDel
  | CInsertStatement, F_columns => HVecFree
  | CInsertStatement, F_values => HVecDel
  | CShowStatement, (F_schema | F_name) => HFree
  | CPrepareStatement, (F_name | F_query) => HFree
  | CUpdateStatement, (F_table | F_where) => HDel
  | CUpdateStatement, F_updates => HUpdates
  (* no destructor: FrameBound, LockingClause, UpdateClause, ColumnConstraints, std::pair *)
  | _, _ => HNone
  end.
