(** Specification: what the members of every node of a statement hold, per class and tag.  This is what a client relies on when it tests a tag and then reads
    (or casts to) what belongs to it.  Classes, members, enumerators: /repo/src/sql/*.h; independent of the parser. *)
From Verif Require Import Base Ast.
Local Open Scope nat_scope.

(** What a member can be promised to hold. *)
Inductive what :=
| Anything                     (* no promise *)
| Null | Text | Flag | Number | Double
| One (l : list val)           (* one of these enumerators *)
| A (l : list cls)             (* a pointer to an object of one of these classes *)
| Items (w : what)             (* a pointer to a vector of such *)
| Opt (w : what)               (* null or such *)
| TypeOfColumn.                (* a ColumnType with all members set *)
Fixpoint holds (w : what) (v : val) : Prop :=
  match w with
  | Anything => True
  | Null => v = VNull
  | Text => exists a s, v = VStr a s
  | Flag => exists b, v = VBool b
  | Number => exists z, v = VInt z
  | Double => exists t, v = VFlt t
  | One l => In v l
  | A l => exists a c fs, v = VObj a c fs /\ In c l
  | Items w => exists a l, v = VVec a l /\ Forall (holds w) l
  | Opt w => v = VNull \/ holds w v
  | TypeOfColumn => exists n length precision scale, v = mk_column_type (VEnum EDataType n) length precision scale
  end.
Definition row := list (fld * what).
(** [holds_row r fs]: the object has exactly the members of [r], holding what [r] promises. *)
Definition holds_row (r : row) (fs : list (fld * val)) : Prop :=
  map fst fs = map fst r /\ forall f w, In (f, w) r -> exists v, lookup f fs = Some v /\ holds w v.

(** [r] with some of the promises replaced. *)
Fixpoint but1 (f : fld) (w : what) (r : row) : row := match r with [] => [] | (g, u) :: r' => if fld_beq f g then (g, w) :: r' else (g, u) :: but1 f w r' end.
Fixpoint but (o r : row) : row := match o with [] => r | (f, w) :: o' => but o' (but1 f w r) end.

(** ** Expressions (Expr.h:112-213).  Any expression may have an alias; what is not mentioned is null (pointers) or set (numbers, flags). *)
Definition an_expr := A [CExpr].
Definition a_select := A [CSelectStatement].
Definition unit_set := One [kDatetimeSecond; kDatetimeMinute; kDatetimeHour; kDatetimeDay; kDatetimeMonth; kDatetimeYear].
Definition ex_row (tag : val) (o : row) : row := but o
  [(F_type, One [tag]); (F_expr, Null); (F_expr2, Null); (F_exprList, Null); (F_select, Null); (F_name, Null); (F_table, Null); (F_schema, Null); (F_alias, Opt Text);
   (F_fval, Double); (F_ival, Number); (F_ival2, Number); (F_datetimeField, One [kDatetimeNone]); (F_columnType, TypeOfColumn); (F_isBoolLiteral, Flag);
   (F_opType, One [kOpNone]); (F_distinct, Flag); (F_windowDescription, Null)].
Definition op_row (ops : list val) (o : row) : row := ex_row kExprOperator ((F_opType, One ops) :: o).
Definition expr_rows : list row :=
  [ex_row kExprLiteralFloat []; ex_row kExprLiteralInt []; ex_row kExprLiteralNull [];
   ex_row kExprLiteralString [(F_name, Text)]; ex_row kExprLiteralDate [(F_name, Text)];
   ex_row kExprLiteralInterval [(F_datetimeField, unit_set)];
   ex_row kExprStar [(F_table, Opt Text)]; ex_row kExprParameter [];
   ex_row kExprColumnRef [(F_name, Text); (F_table, Opt Text)];
   ex_row kExprFunctionRef [(F_name, Text); (F_schema, Opt Text); (F_exprList, Items an_expr); (F_windowDescription, Opt (A [CWindowDescription]))];
   op_row [kOpNot; kOpUnaryMinus; kOpIsNull] [(F_expr, an_expr)];
   op_row [kOpPlus; kOpMinus; kOpAsterisk; kOpSlash; kOpPercentage; kOpCaret; kOpEquals; kOpNotEquals; kOpLess; kOpLessEq; kOpGreater; kOpGreaterEq; kOpLike; kOpNotLike;
           kOpILike; kOpAnd; kOpOr; kOpConcat] [(F_expr, an_expr); (F_expr2, an_expr)];
   op_row [kOpBetween] [(F_expr, an_expr); (F_exprList, Items an_expr)];
   op_row [kOpCase] [(F_expr, Opt an_expr); (F_expr2, Opt an_expr); (F_exprList, Items an_expr)];
   op_row [kOpCaseListElement] [(F_expr, an_expr); (F_expr2, an_expr)];
   op_row [kOpExists] [(F_select, a_select)];
   op_row [kOpIn] [(F_expr, an_expr); (F_exprList, Items an_expr)];
   op_row [kOpIn] [(F_expr, an_expr); (F_select, a_select)];
   ex_row kExprSelect [(F_select, a_select)];
   ex_row kExprHint [(F_name, Text); (F_exprList, Opt (Items an_expr)); (F_alias, Null)];
   ex_row kExprArray [(F_exprList, Items an_expr)];
   ex_row kExprArrayIndex [(F_expr, an_expr)];
   ex_row kExprExtract [(F_expr, an_expr); (F_datetimeField, unit_set)];
   ex_row kExprCast [(F_expr, an_expr)]].

(** ** Tables (Table.h) *)
Definition a_table := A [CTableRef].
Definition ref_row (tag : val) (o : row) : row := but o
  [(F_type, One [tag]); (F_schema, Null); (F_name, Null); (F_alias, Null); (F_select, Null); (F_list, Null); (F_join, Null)].
Definition ref_rows : list row :=
  [ref_row kTableName [(F_schema, Opt Text); (F_name, Text); (F_alias, Opt (A [CAlias]))];
   ref_row kTableSelect [(F_select, a_select); (F_alias, Opt (A [CAlias]))];
   ref_row kTableJoin [(F_join, A [CJoinDefinition])];
   ref_row kTableCrossProduct [(F_list, Items a_table)]].
Definition join_row (tags : list val) (o : row) : row := but o
  [(F_left, a_table); (F_right, a_table); (F_condition, Null); (F_namedColumns, Null); (F_type, One tags)].
Definition join_rows : list row :=
  [join_row [kJoinNatural] [];
   join_row [kJoinInner; kJoinFull; kJoinLeft; kJoinRight; kJoinCross] [(F_condition, an_expr)];
   join_row [kJoinInner; kJoinFull; kJoinLeft; kJoinRight; kJoinCross] [(F_namedColumns, Items Text)]].

(** ** Statements.  The tag type() of a statement, by class. *)
Definition stmt_row (tag : val) (l : row) : row := (F_stringLength, Number) :: (F_hints, Opt (Items an_expr)) :: (F_type_, One [tag]) :: l.
Definition create_row (tag : val) (o : row) : row := stmt_row kStmtCreate (but o
  [(F_type, One [tag]); (F_ifNotExists, Flag); (F_filePath, Null); (F_schema, Opt Text); (F_tableName, Text); (F_indexName, Null); (F_indexColumns, Null);
   (F_columns, Null); (F_tableConstraints, Null); (F_viewColumns, Null); (F_select, Null)]).
Definition formats := One [kImportCSV; kImportTbl; kImportBinary; kImportAuto].
Definition export_row (o : row) : row := stmt_row kStmtExport (but o
  [(F_type, formats); (F_filePath, Text); (F_schema, Null); (F_tableName, Null); (F_select, Null); (F_encoding, Opt Text); (F_csv_options, Opt (A [CCsvOptions]))]).
Definition constraint_kinds := One [ForeignKey; NotNull; CNull; PrimaryKey; Unique].

(** The possible rows of the objects of a class; classes without rows do not occur in statements. *)
Definition rows (c : cls) : list row :=
  match c with
  | CExpr => expr_rows
  | CFrameBound => [[(F_offset, Number); (F_type, One [kFollowing; kPreceding; kCurrentRow]); (F_unbounded, Flag)]]
  | CFrameDescription => [[(F_type, One [kRange; kRows; kGroups]); (F_start, A [CFrameBound]); (F_end, A [CFrameBound])]]
  | CWindowDescription => [[(F_partitionList, Opt (Items an_expr)); (F_orderList, Opt (Items (A [COrderDescription]))); (F_frameDescription, A [CFrameDescription])]]
  | CAlias => [[(F_name, Text); (F_columns, Opt (Items Text))]]
  | CTableRef => ref_rows
  | CJoinDefinition => join_rows
  | COrderDescription => [[(F_type, One [kOrderAsc; kOrderDesc]); (F_expr, an_expr); (F_null_ordering, One [NullOrdering_Undefined; NullOrdering_First; NullOrdering_Last])]]
  | CLimitDescription => [[(F_limit, Opt an_expr); (F_offset, Opt an_expr)]]
  | CGroupByDescription => [[(F_columns, Items an_expr); (F_having, Opt an_expr)]]
  | CWithDescription => [[(F_alias, Text); (F_select, a_select)]]
  | CSetOperation => [[(F_setType, One [kSetUnion; kSetIntersect; kSetExcept]); (F_isAll, Flag); (F_nestedSelectStatement, a_select);
                       (F_resultOrder, Opt (Items (A [COrderDescription]))); (F_resultLimit, Opt (A [CLimitDescription]))]]
  | CLockingClause => [[(F_rowLockMode, One [ForUpdate; ForNoKeyUpdate; ForShare; ForKeyShare]); (F_rowLockWaitPolicy, One [NoWait; SkipLocked; LockNone]); (F_tables, Opt (Items Text))]]
  | CSelectStatement =>     (* stringLength is set in whole statements only *)
    [but1 F_stringLength Anything (stmt_row kStmtSelect
      [(F_fromTable, Opt a_table); (F_selectDistinct, Flag); (F_selectList, Items an_expr); (F_whereClause, Opt an_expr); (F_groupBy, Opt (A [CGroupByDescription]));
       (F_setOperations, Opt (Items (A [CSetOperation]))); (F_order, Opt (Items (A [COrderDescription]))); (F_withDescriptions, Opt (Items (A [CWithDescription])));
       (F_limit, Opt (A [CLimitDescription])); (F_lockings, Opt (Items (A [CLockingClause])))])]
  | CCreateStatement =>
    [create_row kCreateTableFromTbl [(F_filePath, Text)];
     create_row kCreateTable [(F_columns, Items (A [CColumnDefinition])); (F_tableConstraints, Items (A [CTableConstraint; CForeignKeyConstraint]))];
     create_row kCreateTable [(F_select, a_select)];
     create_row kCreateIndex [(F_schema, Null); (F_indexName, Opt Text); (F_indexColumns, Items Text)];
     create_row kCreateView [(F_viewColumns, Opt (Items Text)); (F_select, a_select)]]
  | CColumnDefinition => [[(F_column_constraints, Items constraint_kinds); (F_name, Text); (F_type, TypeOfColumn); (F_nullable, Flag); (F_references, Items (A [CReferencesSpecification]))]]
  | CTableConstraint => [[(F_type, One [PrimaryKey; Unique]); (F_columnNames, Items Text)]]
  | CForeignKeyConstraint => [[(F_type, One [ForeignKey]); (F_columnNames, Items Text); (F_references, A [CReferencesSpecification])]]
  | CReferencesSpecification => [[(F_schema, Opt Text); (F_table, Text); (F_columns, Opt (Items Text))]]
  | CInsertStatement =>
    let ins tag o := stmt_row kStmtInsert (but o [(F_type, One [tag]); (F_schema, Opt Text); (F_tableName, Text); (F_columns, Opt (Items Text)); (F_values, Null); (F_select, Null)]) in
    [ins kInsertValues [(F_values, Items an_expr)]; ins kInsertSelect [(F_select, a_select)]]
  | CDeleteStatement => [stmt_row kStmtDelete [(F_schema, Opt Text); (F_tableName, Text); (F_expr, Opt an_expr)]]
  | CUpdateStatement => [stmt_row kStmtUpdate [(F_table, a_table); (F_updates, Items (A [CUpdateClause])); (F_where, Opt an_expr)]]
  | CUpdateClause => [[(F_column, Text); (F_value, an_expr)]]
  | CDropStatement =>
    let drop tags o := stmt_row kStmtDrop (but o [(F_type, One tags); (F_ifExists, Flag); (F_schema, Null); (F_name, Null); (F_indexName, Null)]) in
    [drop [kDropTable; kDropView] [(F_schema, Opt Text); (F_name, Text)]; drop [kDropPreparedStatement] [(F_name, Text)]; drop [kDropIndex] [(F_indexName, Text)]]
  | CAlterStatement => [stmt_row kStmtAlter [(F_schema, Opt Text); (F_ifTableExists, Flag); (F_name, Text); (F_action, A [CDropColumnAction])]]
  | CDropColumnAction => [[(F_type, One [ActionDropColumn]); (F_columnName, Text); (F_ifExists, Flag)]]
  | CPrepareStatement => [stmt_row kStmtPrepare [(F_name, Text); (F_query, Text)]]
  | CExecuteStatement => [stmt_row kStmtExecute [(F_name, Text); (F_parameters, Opt (Items an_expr))]]
  | CExportStatement => [export_row [(F_schema, Opt Text); (F_tableName, Text)]; export_row [(F_select, a_select)]]
  | CImportStatement => [stmt_row kStmtImport [(F_type, formats); (F_filePath, Text); (F_schema, Opt Text); (F_tableName, Text); (F_whereClause, Opt an_expr);
                                               (F_encoding, Opt Text); (F_csv_options, Opt (A [CCsvOptions]))]]
  | CShowStatement =>
    [stmt_row kStmtShow [(F_type, One [kShowTables]); (F_schema, Null); (F_name, Null)]; stmt_row kStmtShow [(F_type, One [kShowColumns]); (F_schema, Opt Text); (F_name, Text)]]
  | CTransactionStatement => [stmt_row kStmtTransaction [(F_command, One [kBeginTransaction; kCommitTransaction; kRollbackTransaction])]]
  | CCsvOptions => [[(F_delimiter, Opt Text); (F_null, Opt Text); (F_quote, Opt Text)]]
  | CColumnConstraints | CImportExportOptions | CPairInt | CPairCsv => []
  end.

(** The classes a statement can have, with the value of type(). *)
Definition statement_classes : list (cls * val) :=
  [(CSelectStatement, kStmtSelect); (CImportStatement, kStmtImport); (CInsertStatement, kStmtInsert); (CUpdateStatement, kStmtUpdate); (CDeleteStatement, kStmtDelete);
   (CCreateStatement, kStmtCreate); (CDropStatement, kStmtDrop); (CPrepareStatement, kStmtPrepare); (CExecuteStatement, kStmtExecute); (CExportStatement, kStmtExport);
   (CAlterStatement, kStmtAlter); (CShowStatement, kStmtShow); (CTransactionStatement, kStmtTransaction)].

(** [inside u v]: [u] is [v], a member of it, an element of it, or inside one of these. *)
Inductive inside : val -> val -> Prop :=
| in_self : forall v, inside v v
| in_member : forall u a c fs f x, In (f, x) fs -> inside u x -> inside u (VObj a c fs)
| in_element : forall u a l x, In x l -> inside u x -> inside u (VVec a l)
| in_struct : forall u fs f x, In (f, x) fs -> inside u x -> inside u (VRec fs).
