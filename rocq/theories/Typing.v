(** Types of semantic values: which members of which class are set, null or indeterminate, per grammar symbol.
    This is not code of /repo; it is the invariant that the grammar actions are proved to maintain (ActSpec*.v). *)
From Verif Require Import Base TokenCodes LexModel Ast.
Local Open Scope N_scope.

(** Statement kinds and stages: [MRaw] as built, [MHint] after hints were attached, [MFinal] in a statement list. *)
Inductive skind :=
| KSelC (* select_clause *) | KSelW (* select_within_set_operation_no_parentheses *) | KSelN (* select_no_paren *)
| KSelS (* select_statement *)
| KCreTbl | KCreCols | KCreAs | KCreIdx | KCreView
| KInsV | KInsS | KDel | KUpd | KDropT | KDropP | KDropI | KAlter | KPrep | KExec | KExpT | KExpS | KImp
| KShowT | KShowC | KTrans.
Inductive mode := MRaw | MHint | MFinal.

Inductive shape :=
| XFloat | XStr | XInt | XNullLit | XDate | XInterval | XStar | XParam | XCol | XFun | XUn | XBin | XBetween | XCase
| XCaseElem | XCaseList | XExists | XInList | XInSel | XSelect | XHint | XArray | XIdx | XExtract | XCast
| XUnLit | XCastLit
| YBound | YFrame | YWindow | YAliasP | YAliasC
| RName | RSelect | RJoin | RCross | JNat | JOn | JUsing
| YOrder | YLimTop | YLim | YGroup | YWith | OType | OAll | OFull | YLock
| YCol | YTCon | YFKey | YRef | YCCons
| YUpd | YDropCol | YCsv | YOpts | YPairInt | YPairCsv
| St (k : skind) (m : mode)
(* expressions that may have an alias *)
| AFloat | AStr | AInt | ANullLit | ADate | AInterval | AStar | AParam | ACol | AFun | AUn | ABin | ABetween | ACase | AExists | AInList | AInSel | ASelect | AArray | AIdx | AExtract | ACast.

Inductive ty :=
| TNull | TUninit | TInt | TBool | TFlt | TStr
| TEnum (e : enumt) (l : list N)
| TOpt (t : ty)
| TVec (t : ty)
| TRec (l : list (fld * ty))
| TObj (l : list shape).

(** The type of the given enumerators. *)
Definition TE (l : list val) : ty :=
  TEnum (match l with VEnum e _ :: _ => e | _ => EExprType end)
        (map (fun v => match v with VEnum _ n => n | _ => 0 end) l).

Definition lit_shapes := [XFloat; XStr; XInt; XNullLit; XDate; XInterval].
Definition expr_shapes :=
  [XFloat; XStr; XInt; XNullLit; XDate; XInterval; XStar; XParam; XCol; XFun; XUn; XBin; XBetween; XCase; XExists;
   XInList; XInSel; XSelect; XArray; XIdx; XExtract; XCast].
Definition alias_shapes :=
  [AFloat; AStr; AInt; ANullLit; ADate; AInterval; AStar; AParam; ACol; AFun; AUn; ABin; ABetween;
   ACase; AExists; AInList; AInSel; ASelect; AArray; AIdx; AExtract; ACast].
Definition TEx := TObj expr_shapes.
Definition TExA := TObj alias_shapes.
Definition TNum := TObj [XFloat; XInt; XInterval].
Definition TLit := TObj [XFloat; XStr; XInt; XNullLit; XDate; XInterval; XParam].
Definition TExtLit := TObj [XFloat; XStr; XInt; XNullLit; XDate; XInterval; XUnLit].
Definition TCastLit := TObj [XFloat; XStr; XInt; XNullLit; XDate; XInterval; XUnLit; XCastLit].
Definition TSelN := TObj [St KSelN MRaw].
Definition TSelS := TObj [St KSelS MRaw].
Definition TSelIn := TObj [St KSelW MRaw; St KSelN MRaw].
Definition TRef := TObj [RName; RSelect; RJoin; RCross].
Definition TRefAt := TObj [RName; RSelect; RJoin].
Definition TName := TRec [(F_schema, TOpt TStr); (F_name, TStr)].
Definition TColType := TRec [(F_data_type, TEnum EDataType [0;1;2;3;4;5;6;7;8;9;10;11;12;13;14;15]);
                              (F_length, TInt); (F_precision, TInt); (F_scale, TInt)].
Definition TAlias := TObj [YAliasP; YAliasC].
Definition TStrs := TVec TStr.
Definition TConstr := TEnum EConstraintType [0;1;2;3;4].
Definition TField := TEnum EDatetimeField [1;2;3;4;5;6].
Definition TImport := TEnum EImportType [0;1;2;3].

(** Field types with overrides. *)
Fixpoint over1 (f : fld) (t : ty) (l : list (fld * ty)) : list (fld * ty) :=
  match l with [] => [] | (g, u) :: l' => if fld_beq f g then (g, t) :: l' else (g, u) :: over1 f t l' end.
Fixpoint over (o l : list (fld * ty)) : list (fld * ty) :=
  match o with [] => l | (f, t) :: o' => over o' (over1 f t l) end.

Definition expr_ty (k : val) (o : list (fld * ty)) : cls * list (fld * ty) :=
  (CExpr, over o
   [(F_type, TE [k]); (F_expr, TNull); (F_expr2, TNull); (F_exprList, TNull); (F_select, TNull); (F_name, TNull);
    (F_table, TNull); (F_schema, TNull); (F_alias, TNull); (F_fval, TFlt); (F_ival, TInt); (F_ival2, TInt);
    (F_datetimeField, TE [kDatetimeNone]); (F_columnType, TColType); (F_isBoolLiteral, TBool);
    (F_opType, TE [kOpNone]); (F_distinct, TBool); (F_windowDescription, TNull)]).
Definition al (d : cls * list (fld * ty)) : cls * list (fld * ty) := (fst d, over1 F_alias (TOpt TStr) (snd d)).
Definition op_ty (ops : list val) (o : list (fld * ty)) := expr_ty kExprOperator ((F_opType, TE ops) :: o).

Definition ref_ty (k : val) (o : list (fld * ty)) : cls * list (fld * ty) :=
  (CTableRef, over o [(F_type, TE [k]); (F_schema, TNull); (F_name, TNull); (F_alias, TNull); (F_select, TNull);
                      (F_list, TNull); (F_join, TNull)]).
Definition join_ty (o : list (fld * ty)) : cls * list (fld * ty) :=
  (CJoinDefinition, over o [(F_left, TRefAt); (F_right, TRefAt); (F_condition, TNull); (F_namedColumns, TNull);
                            (F_type, TE [kJoinNatural])]).
Definition stmt_ty (m : mode) (k : val) (c : cls) (l : list (fld * ty)) : cls * list (fld * ty) :=
  (c, (F_stringLength, match m with MFinal => TInt | _ => TUninit end)
      :: (F_hints, match m with MRaw => TNull | _ => TOpt (TVec (TObj [XHint])) end) :: (F_type_, TE [k]) :: l).
Definition select_ty (m : mode) (o : list (fld * ty)) : cls * list (fld * ty) :=
  stmt_ty m kStmtSelect CSelectStatement (over o
   [(F_fromTable, TOpt TRef); (F_selectDistinct, TBool); (F_selectList, TVec TExA); (F_whereClause, TOpt TEx);
    (F_groupBy, TOpt (TObj [YGroup])); (F_setOperations, TOpt (TVec (TObj [OFull]))); (F_order, TOpt (TVec (TObj [YOrder])));
    (F_withDescriptions, TNull); (F_limit, TOpt (TObj [YLimTop; YLim])); (F_lockings, TOpt (TVec (TObj [YLock])))]).
Definition create_ty (m : mode) (k : val) (o : list (fld * ty)) : cls * list (fld * ty) :=
  stmt_ty m kStmtCreate CCreateStatement (over o
   [(F_type, TE [k]); (F_ifNotExists, TBool); (F_filePath, TNull); (F_schema, TOpt TStr); (F_tableName, TStr);
    (F_indexName, TNull); (F_indexColumns, TNull); (F_columns, TNull); (F_tableConstraints, TNull);
    (F_viewColumns, TNull); (F_select, TNull)]).

Definition shape_def0 (s : shape) : cls * list (fld * ty) :=
  match s with
  | XFloat => expr_ty kExprLiteralFloat []
  | XStr => expr_ty kExprLiteralString [(F_name, TStr)]
  | XInt => expr_ty kExprLiteralInt []
  | XNullLit => expr_ty kExprLiteralNull []
  | XDate => expr_ty kExprLiteralDate [(F_name, TStr)]
  | XInterval => expr_ty kExprLiteralInterval [(F_datetimeField, TField)]
  | XStar => expr_ty kExprStar [(F_table, TOpt TStr)]
  | XParam => expr_ty kExprParameter []
  | XCol => expr_ty kExprColumnRef [(F_name, TStr); (F_table, TOpt TStr)]
  | XFun => expr_ty kExprFunctionRef [(F_name, TStr); (F_schema, TOpt TStr); (F_exprList, TVec TExA);
                                      (F_windowDescription, TOpt (TObj [YWindow]))]
  | XUn => op_ty [kOpNot; kOpUnaryMinus; kOpIsNull] [(F_expr, TEx)]
  | XBin => op_ty [kOpPlus; kOpMinus; kOpAsterisk; kOpSlash; kOpPercentage; kOpCaret; kOpEquals; kOpNotEquals; kOpLess;
                   kOpLessEq; kOpGreater; kOpGreaterEq; kOpLike; kOpNotLike; kOpILike; kOpAnd; kOpOr; kOpConcat]
                  [(F_expr, TEx); (F_expr2, TEx)]
  | XBetween => op_ty [kOpBetween] [(F_expr, TEx); (F_exprList, TVec TEx)]
  | XCase => op_ty [kOpCase] [(F_expr, TOpt TEx); (F_expr2, TOpt TEx); (F_exprList, TVec (TObj [XCaseElem]))]
  | XCaseElem => op_ty [kOpCaseListElement] [(F_expr, TEx); (F_expr2, TEx)]
  | XCaseList => op_ty [kOpNone] [(F_exprList, TVec (TObj [XCaseElem]))]
  | XExists => op_ty [kOpExists] [(F_select, TSelN)]
  | XInList => op_ty [kOpIn] [(F_expr, TEx); (F_exprList, TVec TExA)]
  | XInSel => op_ty [kOpIn] [(F_expr, TEx); (F_select, TSelN)]
  | XSelect => expr_ty kExprSelect [(F_select, TSelN)]
  | XHint => expr_ty kExprHint [(F_name, TStr); (F_exprList, TOpt (TVec TCastLit))]
  | XArray => expr_ty kExprArray [(F_exprList, TVec TExA)]
  | XIdx => expr_ty kExprArrayIndex [(F_expr, TEx)]
  | XExtract => expr_ty kExprExtract [(F_expr, TEx); (F_datetimeField, TField)]
  | XCast => expr_ty kExprCast [(F_expr, TEx)]
  | XUnLit => op_ty [kOpUnaryMinus] [(F_expr, TNum)]
  | XCastLit => expr_ty kExprCast [(F_expr, TExtLit)]
  | YBound => (CFrameBound, [(F_offset, TInt); (F_type, TE [kFollowing; kPreceding; kCurrentRow]); (F_unbounded, TBool)])
  | YFrame => (CFrameDescription, [(F_type, TE [kRange; kRows; kGroups]); (F_start, TObj [YBound]); (F_end, TObj [YBound])])
  | YWindow => (CWindowDescription, [(F_partitionList, TOpt (TVec TExA)); (F_orderList, TOpt (TVec (TObj [YOrder])));
                                     (F_frameDescription, TObj [YFrame])])
  | YAliasP => (CAlias, [(F_name, TStr); (F_columns, TNull)])
  | YAliasC => (CAlias, [(F_name, TStr); (F_columns, TStrs)])
  | RName => ref_ty kTableName [(F_schema, TOpt TStr); (F_name, TStr); (F_alias, TOpt TAlias)]
  | RSelect => ref_ty kTableSelect [(F_select, TSelS); (F_alias, TOpt TAlias)]
  | RJoin => ref_ty kTableJoin [(F_join, TObj [JNat; JOn; JUsing])]
  | RCross => ref_ty kTableCrossProduct [(F_list, TVec TRefAt)]
  | JNat => join_ty []
  | JOn => join_ty [(F_condition, TEx); (F_type, TE [kJoinInner; kJoinFull; kJoinLeft; kJoinRight; kJoinCross])]
  | JUsing => join_ty [(F_namedColumns, TStrs); (F_type, TE [kJoinInner; kJoinFull; kJoinLeft; kJoinRight; kJoinCross])]
  | YOrder => (COrderDescription, [(F_type, TE [kOrderAsc; kOrderDesc]); (F_expr, TEx);
                                   (F_null_ordering, TE [NullOrdering_Undefined; NullOrdering_First; NullOrdering_Last])])
  | YLimTop => (CLimitDescription, [(F_limit, TObj [XInt]); (F_offset, TNull)])
  | YLim => (CLimitDescription, [(F_limit, TOpt TEx); (F_offset, TOpt TEx)])
  | YGroup => (CGroupByDescription, [(F_columns, TVec TExA); (F_having, TOpt TEx)])
  | YWith => (CWithDescription, [(F_alias, TStr); (F_select, TSelN)])
  | OType => (CSetOperation, [(F_setType, TE [kSetUnion; kSetIntersect; kSetExcept]); (F_isAll, TUninit);
                              (F_nestedSelectStatement, TNull); (F_resultOrder, TNull); (F_resultLimit, TNull)])
  | OAll => (CSetOperation, [(F_setType, TE [kSetUnion; kSetIntersect; kSetExcept]); (F_isAll, TBool);
                             (F_nestedSelectStatement, TNull); (F_resultOrder, TNull); (F_resultLimit, TNull)])
  | OFull => (CSetOperation, [(F_setType, TE [kSetUnion; kSetIntersect; kSetExcept]); (F_isAll, TBool);
                              (F_nestedSelectStatement, TSelIn); (F_resultOrder, TOpt (TVec (TObj [YOrder])));
                              (F_resultLimit, TOpt (TObj [YLim]))])
  | YLock => (CLockingClause, [(F_rowLockMode, TE [ForUpdate; ForNoKeyUpdate; ForShare; ForKeyShare]);
                               (F_rowLockWaitPolicy, TE [NoWait; SkipLocked; LockNone]); (F_tables, TOpt TStrs)])
  | YCol => (CColumnDefinition, [(F_column_constraints, TVec TConstr); (F_name, TStr); (F_type, TColType);
                                 (F_nullable, TBool); (F_references, TVec (TObj [YRef]))])
  | YTCon => (CTableConstraint, [(F_type, TE [PrimaryKey; Unique]); (F_columnNames, TStrs)])
  | YFKey => (CForeignKeyConstraint, [(F_type, TE [ForeignKey]); (F_columnNames, TStrs); (F_references, TObj [YRef])])
  | YRef => (CReferencesSpecification, [(F_schema, TOpt TStr); (F_table, TStr); (F_columns, TOpt TStrs)])
  | YCCons => (CColumnConstraints, [(F_constraints, TVec TConstr); (F_references, TVec (TObj [YRef]))])
  | YUpd => (CUpdateClause, [(F_column, TStr); (F_value, TEx)])
  | YDropCol => (CDropColumnAction, [(F_type, TE [ActionDropColumn]); (F_columnName, TStr); (F_ifExists, TBool)])
  | YCsv => (CCsvOptions, [(F_delimiter, TOpt TStr); (F_null, TOpt TStr); (F_quote, TOpt TStr)])
  | YOpts => (CImportExportOptions, [(F_format, TImport); (F_encoding, TOpt TStr); (F_csv_options, TOpt (TObj [YCsv]))])
  | YPairInt => (CPairInt, [(F_first, TInt); (F_second, TInt)])
  | YPairCsv => (CPairCsv, [(F_first, TE [CsvDelimiter; CsvNull; CsvQuote]); (F_second, TStr)])
  | St k m =>
    match k with
    | KSelC => select_ty m [(F_setOperations, TNull); (F_order, TNull); (F_limit, TOpt (TObj [YLimTop])); (F_lockings, TNull)]
    | KSelW => select_ty m [(F_order, TNull); (F_limit, TOpt (TObj [YLimTop])); (F_lockings, TNull)]
    | KSelN => select_ty m []
    | KSelS => select_ty m [(F_withDescriptions, TOpt (TVec (TObj [YWith])))]
    | KCreTbl => create_ty m kCreateTableFromTbl [(F_filePath, TStr)]
    | KCreCols => create_ty m kCreateTable [(F_columns, TVec (TObj [YCol])); (F_tableConstraints, TVec (TObj [YTCon; YFKey]))]
    | KCreAs => create_ty m kCreateTable [(F_select, TSelS)]
    | KCreIdx => create_ty m kCreateIndex [(F_schema, TNull); (F_indexName, TOpt TStr); (F_indexColumns, TStrs)]
    | KCreView => create_ty m kCreateView [(F_viewColumns, TOpt TStrs); (F_select, TSelS)]
    | KInsV => stmt_ty m kStmtInsert CInsertStatement
                 [(F_type, TE [kInsertValues]); (F_schema, TOpt TStr); (F_tableName, TStr); (F_columns, TOpt TStrs);
                  (F_values, TVec TCastLit); (F_select, TNull)]
    | KInsS => stmt_ty m kStmtInsert CInsertStatement
                 [(F_type, TE [kInsertSelect]); (F_schema, TOpt TStr); (F_tableName, TStr); (F_columns, TOpt TStrs);
                  (F_values, TNull); (F_select, TSelN)]
    | KDel => stmt_ty m kStmtDelete CDeleteStatement [(F_schema, TOpt TStr); (F_tableName, TStr); (F_expr, TOpt TEx)]
    | KUpd => stmt_ty m kStmtUpdate CUpdateStatement
                [(F_table, TObj [RName]); (F_updates, TVec (TObj [YUpd])); (F_where, TOpt TEx)]
    | KDropT => stmt_ty m kStmtDrop CDropStatement
                  [(F_type, TE [kDropTable; kDropView]); (F_ifExists, TBool); (F_schema, TOpt TStr); (F_name, TStr);
                   (F_indexName, TNull)]
    | KDropP => stmt_ty m kStmtDrop CDropStatement
                  [(F_type, TE [kDropPreparedStatement]); (F_ifExists, TBool); (F_schema, TNull); (F_name, TStr);
                   (F_indexName, TNull)]
    | KDropI => stmt_ty m kStmtDrop CDropStatement
                  [(F_type, TE [kDropIndex]); (F_ifExists, TBool); (F_schema, TNull); (F_name, TNull); (F_indexName, TStr)]
    | KAlter => stmt_ty m kStmtAlter CAlterStatement
                  [(F_schema, TOpt TStr); (F_ifTableExists, TBool); (F_name, TStr); (F_action, TObj [YDropCol])]
    | KPrep => stmt_ty m kStmtPrepare CPrepareStatement [(F_name, TStr); (F_query, TStr)]
    | KExec => stmt_ty m kStmtExecute CExecuteStatement [(F_name, TStr); (F_parameters, TOpt (TVec TCastLit))]
    | KExpT => stmt_ty m kStmtExport CExportStatement
                 [(F_type, TImport); (F_filePath, TStr); (F_schema, TOpt TStr); (F_tableName, TStr); (F_select, TNull);
                  (F_encoding, TOpt TStr); (F_csv_options, TOpt (TObj [YCsv]))]
    | KExpS => stmt_ty m kStmtExport CExportStatement
                 [(F_type, TImport); (F_filePath, TStr); (F_schema, TNull); (F_tableName, TNull); (F_select, TSelN);
                  (F_encoding, TOpt TStr); (F_csv_options, TOpt (TObj [YCsv]))]
    | KImp => stmt_ty m kStmtImport CImportStatement
                [(F_type, TImport); (F_filePath, TStr); (F_schema, TOpt TStr); (F_tableName, TStr); (F_whereClause, TOpt TEx);
                 (F_encoding, TOpt TStr); (F_csv_options, TOpt (TObj [YCsv]))]
    | KShowT => stmt_ty m kStmtShow CShowStatement [(F_type, TE [kShowTables]); (F_schema, TNull); (F_name, TNull)]
    | KShowC => stmt_ty m kStmtShow CShowStatement [(F_type, TE [kShowColumns]); (F_schema, TOpt TStr); (F_name, TStr)]
    | KTrans => stmt_ty m kStmtTransaction CTransactionStatement
                  [(F_command, TE [kBeginTransaction; kCommitTransaction; kRollbackTransaction])]
    end
  | AFloat => al (expr_ty kExprLiteralFloat [])
  | AStr => al (expr_ty kExprLiteralString [(F_name, TStr)])
  | AInt => al (expr_ty kExprLiteralInt [])
  | ANullLit => al (expr_ty kExprLiteralNull [])
  | ADate => al (expr_ty kExprLiteralDate [(F_name, TStr)])
  | AInterval => al (expr_ty kExprLiteralInterval [(F_datetimeField, TField)])
  | AStar => al (expr_ty kExprStar [(F_table, TOpt TStr)])
  | AParam => al (expr_ty kExprParameter [])
  | ACol => al (expr_ty kExprColumnRef [(F_name, TStr); (F_table, TOpt TStr)])
  | AFun => al (expr_ty kExprFunctionRef [(F_name, TStr); (F_schema, TOpt TStr); (F_exprList, TVec TExA);
                                      (F_windowDescription, TOpt (TObj [YWindow]))])
  | AUn => al (op_ty [kOpNot; kOpUnaryMinus; kOpIsNull] [(F_expr, TEx)])
  | ABin => al (op_ty [kOpPlus; kOpMinus; kOpAsterisk; kOpSlash; kOpPercentage; kOpCaret; kOpEquals; kOpNotEquals; kOpLess;
                   kOpLessEq; kOpGreater; kOpGreaterEq; kOpLike; kOpNotLike; kOpILike; kOpAnd; kOpOr; kOpConcat]
                  [(F_expr, TEx); (F_expr2, TEx)])
  | ABetween => al (op_ty [kOpBetween] [(F_expr, TEx); (F_exprList, TVec TEx)])
  | ACase => al (op_ty [kOpCase] [(F_expr, TOpt TEx); (F_expr2, TOpt TEx); (F_exprList, TVec (TObj [XCaseElem]))])
  | AExists => al (op_ty [kOpExists] [(F_select, TSelN)])
  | AInList => al (op_ty [kOpIn] [(F_expr, TEx); (F_exprList, TVec TExA)])
  | AInSel => al (op_ty [kOpIn] [(F_expr, TEx); (F_select, TSelN)])
  | ASelect => al (expr_ty kExprSelect [(F_select, TSelN)])
  | AArray => al (expr_ty kExprArray [(F_exprList, TVec TExA)])
  | AIdx => al (expr_ty kExprArrayIndex [(F_expr, TEx)])
  | AExtract => al (expr_ty kExprExtract [(F_expr, TEx); (F_datetimeField, TField)])
  | ACast => al (expr_ty kExprCast [(F_expr, TEx)])
  end.
(** The same function with the helper functions evaluated. *)
Definition shape_def : shape -> cls * list (fld * ty) :=
  Eval cbv beta iota zeta
       delta [shape_def0 expr_ty al fst snd op_ty ref_ty join_ty stmt_ty select_ty create_ty over over1 fld_beq fld_code N.eqb
              Pos.eqb TE map
              kExprLiteralFloat kExprLiteralString kExprLiteralInt kExprLiteralNull kExprLiteralDate
              kExprLiteralInterval kExprStar kExprParameter kExprColumnRef kExprFunctionRef kExprOperator kExprSelect
              kExprHint kExprArray kExprArrayIndex kExprExtract kExprCast
              kOpNone kOpBetween kOpCase kOpCaseListElement kOpPlus kOpMinus kOpAsterisk kOpSlash kOpPercentage kOpCaret
              kOpEquals kOpNotEquals kOpLess kOpLessEq kOpGreater kOpGreaterEq kOpLike kOpNotLike kOpILike kOpAnd kOpOr
              kOpIn kOpConcat kOpNot kOpUnaryMinus kOpIsNull kOpExists kDatetimeNone
              kFollowing kPreceding kCurrentRow kRange kRows kGroups kTableName kTableSelect kTableJoin
              kTableCrossProduct kJoinInner kJoinFull kJoinLeft kJoinRight kJoinCross kJoinNatural kOrderAsc kOrderDesc
              NullOrdering_Undefined NullOrdering_First NullOrdering_Last kSetUnion kSetIntersect kSetExcept
              ForUpdate ForNoKeyUpdate ForShare ForKeyShare NoWait SkipLocked LockNone
              PrimaryKey Unique ForeignKey ActionDropColumn CsvDelimiter CsvNull CsvQuote
              kStmtSelect kStmtImport kStmtInsert kStmtUpdate kStmtDelete kStmtCreate kStmtDrop kStmtPrepare kStmtExecute
              kStmtExport kStmtAlter kStmtShow kStmtTransaction kCreateTable kCreateTableFromTbl kCreateView kCreateIndex
              kInsertValues kInsertSelect kDropTable kDropView kDropPreparedStatement kDropIndex kShowTables kShowColumns
              kBeginTransaction kCommitTransaction kRollbackTransaction] in shape_def0.

(** Typing of values. *)
Inductive wt : val -> ty -> Prop :=
| wt_null : wt VNull TNull
| wt_uninit : wt VUninit TUninit
| wt_int : forall z, wt (VInt z) TInt
| wt_bool : forall b, wt (VBool b) TBool
| wt_flt : forall t, wt (VFlt t) TFlt
| wt_str : forall a s, wt (VStr a s) TStr
| wt_enum : forall e n l, In n l -> wt (VEnum e n) (TEnum e l)
| wt_none : forall t, wt VNull (TOpt t)
| wt_some : forall v t, wt v t -> wt v (TOpt t)
| wt_vec : forall a l t, wtl l t -> wt (VVec a l) (TVec t)
| wt_rec : forall fs ts, wts fs ts -> wt (VRec fs) (TRec ts)
| wt_obj : forall a s fs l, In s l -> wts fs (snd (shape_def s)) -> wt (VObj a (fst (shape_def s)) fs) (TObj l)
with wtl : list val -> ty -> Prop :=
| wtl_nil : forall t, wtl [] t
| wtl_cons : forall v l t, wt v t -> wtl l t -> wtl (v :: l) t
with wts : list (fld * val) -> list (fld * ty) -> Prop :=
| wts_nil : wts [] []
| wts_cons : forall f v t fs ts, wt v t -> wts fs ts -> wts ((f, v) :: fs) ((f, t) :: ts).
Scheme wt_mind := Induction for wt Sort Prop with wtl_mind := Induction for wtl Sort Prop
  with wts_mind := Induction for wts Sort Prop.
Combined Scheme wt_mutind from wt_mind, wtl_mind, wts_mind.

(** The type of the value of every grammar symbol. *)
Definition prep_kinds := [KSelS; KCreTbl; KCreCols; KCreAs; KCreIdx; KCreView; KInsV; KInsS; KDel; KUpd; KDropT; KDropP;
                          KDropI; KAlter; KExec; KTrans].
Definition all_kinds := prep_kinds ++ [KPrep; KExpT; KExpS; KImp; KShowT; KShowC].
Definition TStmts (m : mode) (l : list skind) : ty := TObj (map (fun k => St k m) l).
Definition io_kinds := [KExpT; KExpS; KImp; KShowT; KShowC].
Definition TStatement : ty :=
  TObj (map (fun k => St k MHint) (KPrep :: prep_kinds) ++ map (fun k => St k MRaw) io_kinds).
Definition TFinal : ty := TStmts MFinal all_kinds.

Definition symbol_types : list (N * ty) := [
  (S_IDENTIFIER, TStr); (S_STRING, TStr); (S_FLOATVAL, TFlt); (S_INTVAL, TInt);
  (S_statement_list, TVec TFinal); (S_statement, TStatement); (S_preparable_statement, TStmts MRaw prep_kinds);
  (S_opt_hints, TOpt (TVec (TObj [XHint]))); (S_hint_list, TVec (TObj [XHint])); (S_hint, TObj [XHint]);
  (S_transaction_statement, TStmts MRaw [KTrans]); (S_prepare_statement, TStmts MRaw [KPrep]);
  (S_prepare_target_query, TStr); (S_execute_statement, TStmts MRaw [KExec]); (S_import_statement, TStmts MRaw [KImp]);
  (S_file_type, TE [kImportCSV; kImportTbl; kImportBinary]); (S_file_path, TStr); (S_opt_import_export_options, TObj [YOpts]);
  (S_import_export_options, TObj [YOpts]); (S_csv_option, TObj [YPairCsv]);
  (S_export_statement, TStmts MRaw [KExpT; KExpS]); (S_show_statement, TStmts MRaw [KShowT; KShowC]);
  (S_create_statement, TStmts MRaw [KCreTbl; KCreCols; KCreAs; KCreIdx; KCreView]); (S_opt_not_exists, TBool);
  (S_table_elem_commalist, TVec (TObj [YCol; YTCon; YFKey])); (S_table_elem, TObj [YCol; YTCon; YFKey]);
  (S_column_def, TObj [YCol]); (S_column_type, TColType); (S_opt_time_precision, TInt);
  (S_opt_decimal_specification, TObj [YPairInt]); (S_opt_column_constraints, TObj [YCCons]);
  (S_column_constraints, TObj [YCCons]); (S_column_constraint, TConstr); (S_table_constraint, TObj [YTCon; YFKey]);
  (S_references_spec, TObj [YRef]); (S_drop_statement, TStmts MRaw [KDropT; KDropP; KDropI]); (S_opt_exists, TBool);
  (S_alter_statement, TStmts MRaw [KAlter]); (S_alter_action, TObj [YDropCol]); (S_drop_action, TObj [YDropCol]);
  (S_delete_statement, TStmts MRaw [KDel]); (S_truncate_statement, TStmts MRaw [KDel]);
  (S_insert_statement, TStmts MRaw [KInsV; KInsS]); (S_opt_column_list, TOpt TStrs);
  (S_update_statement, TStmts MRaw [KUpd]); (S_update_clause_commalist, TVec (TObj [YUpd])); (S_update_clause, TObj [YUpd]);
  (S_select_statement, TSelS); (S_select_within_set_operation, TSelIn);
  (S_select_within_set_operation_no_parentheses, TObj [St KSelW MRaw]); (S_select_with_paren, TSelN);
  (S_select_no_paren, TSelN); (S_set_operator, TObj [OAll]); (S_set_type, TObj [OType]); (S_opt_all, TBool);
  (S_select_clause, TObj [St KSelC MRaw]); (S_opt_distinct, TBool); (S_select_list, TVec TExA);
  (S_opt_from_clause, TOpt TRef); (S_from_clause, TRef); (S_opt_where, TOpt TEx); (S_opt_group, TOpt (TObj [YGroup]));
  (S_opt_having, TOpt TEx); (S_opt_order, TOpt (TVec (TObj [YOrder]))); (S_order_list, TVec (TObj [YOrder]));
  (S_order_desc, TObj [YOrder]); (S_opt_order_type, TE [kOrderAsc; kOrderDesc]);
  (S_opt_null_ordering, TE [NullOrdering_Undefined; NullOrdering_First; NullOrdering_Last]);
  (S_opt_top, TOpt (TObj [YLimTop])); (S_opt_limit, TOpt (TObj [YLim])); (S_expr_list, TVec TExA);
  (S_opt_extended_literal_list, TOpt (TVec TCastLit)); (S_extended_literal_list, TVec TCastLit);
  (S_casted_extended_literal, TCastLit); (S_extended_literal, TExtLit); (S_expr_alias, TExA); (S_expr, TEx);
  (S_operand, TEx); (S_scalar_expr, TEx); (S_unary_expr, TEx); (S_binary_expr, TEx); (S_logic_expr, TEx);
  (S_in_expr, TEx); (S_case_expr, TEx); (S_case_list, TObj [XCaseList]); (S_exists_expr, TEx); (S_comp_expr, TEx);
  (S_function_expr, TEx); (S_opt_window, TOpt (TObj [YWindow])); (S_opt_partition, TOpt (TVec TExA));
  (S_opt_frame_clause, TObj [YFrame]); (S_frame_type, TE [kRange; kRows; kGroups]); (S_frame_bound, TObj [YBound]);
  (S_extract_expr, TEx); (S_cast_expr, TEx); (S_datetime_field, TField); (S_datetime_field_plural, TField);
  (S_duration_field, TField); (S_array_expr, TEx); (S_array_index, TEx); (S_between_expr, TEx); (S_column_name, TEx);
  (S_literal, TLit); (S_string_literal, TObj [XStr]); (S_bool_literal, TObj [XInt]);
  (S_num_literal, TObj [XFloat; XInt]); (S_int_literal, TObj [XInt]); (S_null_literal, TObj [XNullLit]);
  (S_date_literal, TObj [XDate]); (S_interval_literal, TObj [XInterval]); (S_param_expr, TObj [XParam]);
  (S_table_ref, TRef); (S_table_ref_atomic, TRefAt); (S_nonjoin_table_ref_atomic, TRefAt);
  (S_table_ref_commalist, TVec TRefAt); (S_table_ref_name, TObj [RName]); (S_table_ref_name_no_alias, TObj [RName]);
  (S_table_name, TName); (S_opt_index_name, TOpt TStr); (S_table_alias, TAlias); (S_opt_table_alias, TOpt TAlias);
  (S_alias, TObj [YAliasP]); (S_opt_alias, TOpt (TObj [YAliasP])); (S_opt_locking_clause, TOpt (TVec (TObj [YLock])));
  (S_opt_locking_clause_list, TVec (TObj [YLock])); (S_locking_clause, TObj [YLock]);
  (S_row_lock_mode, TE [ForUpdate; ForNoKeyUpdate; ForShare; ForKeyShare]);
  (S_opt_row_lock_policy, TE [NoWait; SkipLocked; LockNone]);
  (S_opt_with_clause, TOpt (TVec (TObj [YWith]))); (S_with_clause, TVec (TObj [YWith]));
  (S_with_description_list, TVec (TObj [YWith])); (S_with_description, TObj [YWith]); (S_join_clause, TObj [RJoin]);
  (S_opt_join_type, TE [kJoinInner; kJoinFull; kJoinLeft; kJoinRight; kJoinCross]); (S_join_condition, TEx);
  (S_ident_commalist, TStrs)].
(** Symbols without a semantic value: the indeterminate value. *)
Definition symty (X : N) : ty :=
  match find (fun p => N.eqb (fst p) X) symbol_types with Some p => snd p | None => TUninit end.

(** Subtyping. *)
Definition skind_code (k : skind) : N :=
  match k with
  | KSelC => 0 | KSelW => 1 | KSelN => 2 | KSelS => 3 | KCreTbl => 4 | KCreCols => 5 | KCreAs => 6 | KCreIdx => 7
  | KCreView => 8 | KInsV => 9 | KInsS => 10 | KDel => 11 | KUpd => 12 | KDropT => 13 | KDropP => 14 | KDropI => 15
  | KAlter => 16 | KPrep => 17 | KExec => 18 | KExpT => 19 | KExpS => 20 | KImp => 21 | KShowT => 22 | KShowC => 23
  | KTrans => 24
  end.
Definition skinds : list skind :=
  [KSelC; KSelW; KSelN; KSelS; KCreTbl; KCreCols; KCreAs; KCreIdx; KCreView; KInsV; KInsS; KDel; KUpd; KDropT; KDropP; KDropI;
   KAlter; KPrep; KExec; KExpT; KExpS; KImp; KShowT; KShowC; KTrans].
Definition modes := [MRaw; MHint; MFinal].
Definition plain_shapes : list shape :=
  [XFloat; XStr; XInt; XNullLit; XDate; XInterval; XStar; XParam; XCol; XFun; XUn; XBin; XBetween; XCase; XCaseElem;
   XCaseList; XExists; XInList; XInSel; XSelect; XHint; XArray; XIdx; XExtract; XCast; XUnLit; XCastLit; YBound; YFrame;
   YWindow; YAliasP; YAliasC; RName; RSelect; RJoin; RCross; JNat; JOn; JUsing; YOrder; YLimTop; YLim; YGroup; YWith;
   OType; OAll; OFull; YLock; YCol; YTCon; YFKey; YRef; YCCons; YUpd; YDropCol; YCsv; YOpts; YPairInt; YPairCsv].
Definition all_shapes : list shape := plain_shapes ++ flat_map (fun k => map (St k) modes) skinds ++ alias_shapes.
Lemma all_shapes_In s : In s all_shapes.
Proof.
  assert (D : forall x y : shape, {x = y} + {x <> y}) by (decide equality; decide equality).
  destruct s as [| | | | | | | | | | | | | | | | | | | | | | | | | | | | | | | | | | | | | | | | | | | | | | | | | | | | | | | | | | |k m| | | | | | | | | | | | | | | | | | | | | |];
    try (vm_compute; tauto).
  unfold all_shapes. apply in_or_app. right. apply in_or_app. left. apply in_flat_map. exists k. split; [destruct k; vm_compute; tauto|].
  apply in_map. destruct m; vm_compute; tauto.
Qed.
Definition shape_code (s : shape) : N :=
  match s with
  | XFloat => 0 | XStr => 1 | XInt => 2 | XNullLit => 3 | XDate => 4 | XInterval => 5 | XStar => 6 | XParam => 7 | XCol => 8
  | XFun => 9 | XUn => 10 | XBin => 11 | XBetween => 12 | XCase => 13 | XCaseElem => 14 | XCaseList => 15 | XExists => 16
  | XInList => 17 | XInSel => 18 | XSelect => 19 | XHint => 20 | XArray => 21 | XIdx => 22 | XExtract => 23 | XCast => 24
  | XUnLit => 25 | XCastLit => 26 | YBound => 27 | YFrame => 28 | YWindow => 29 | YAliasP => 30 | YAliasC => 31 | RName => 32
  | RSelect => 33 | RJoin => 34 | RCross => 35 | JNat => 36 | JOn => 37 | JUsing => 38 | YOrder => 39 | YLimTop => 40
  | YLim => 41 | YGroup => 42 | YWith => 43 | OType => 44 | OAll => 45 | OFull => 46 | YLock => 47 | YCol => 48 | YTCon => 49
  | YFKey => 50 | YRef => 51 | YCCons => 52 | YUpd => 53 | YDropCol => 54 | YCsv => 55 | YOpts => 56 | YPairInt => 57
  | YPairCsv => 58
  | St k m => 59 + 3 * skind_code k + match m with MRaw => 0 | MHint => 1 | MFinal => 2 end
  | AFloat => 134 | AStr => 135 | AInt => 136 | ANullLit => 137 | ADate => 138 | AInterval => 139 | AStar => 140 | AParam => 141 | ACol => 142 | AFun => 143 | AUn => 144 | ABin => 145
  | ABetween => 146 | ACase => 147 | AExists => 148 | AInList => 149 | AInSel => 150 | ASelect => 151 | AArray => 152 | AIdx => 153 | AExtract => 154 | ACast => 155
  end.
Definition shape_beq (x y : shape) : bool := N.eqb (shape_code x) (shape_code y).
Lemma shape_beq_eq x y : shape_beq x y = true -> x = y.
Proof.
  unfold shape_beq. intro H. apply N.eqb_eq in H.
  assert (R : forall z, nth_error all_shapes (N.to_nat (shape_code z)) = Some z).
  { intro z. pose proof (all_shapes_In z) as I.
    assert (C : forallb (fun z => match nth_error all_shapes (N.to_nat (shape_code z)) with
                                  | Some w => N.eqb (shape_code w) (shape_code z) | None => false end) all_shapes = true)
      by (vm_compute; reflexivity).
    destruct z as [| | | | | | | | | | | | | | | | | | | | | | | | | | | | | | | | | | | | | | | | | | | | | | | | | | | | | | | | | | |k m| | | | | | | | | | | | | | | | | | | | | |];
      try reflexivity. destruct k, m; reflexivity. }
  pose proof (R x) as A. rewrite H, (R y) in A. congruence.
Qed.
Definition mem_shape (s : shape) (l : list shape) : bool := existsb (shape_beq s) l.
Lemma mem_shape_In s l : mem_shape s l = true -> In s l.
Proof.
  unfold mem_shape. intro H. apply existsb_exists in H as (x & I & E). apply shape_beq_eq in E. now subst.
Qed.
Definition memNb (a : N) (l : list N) : bool := existsb (N.eqb a) l.

Fixpoint sub (t u : ty) : bool :=
  match t, u with
  | TNull, TNull => true | TNull, TOpt _ => true
  | TUninit, TUninit => true | TInt, TInt => true | TBool, TBool => true | TFlt, TFlt => true | TStr, TStr => true
  | TEnum e l, TEnum e' l' => enumt_beq e e' && forallb (fun n => memNb n l') l
  | TOpt t', TOpt u' => sub t' u'
  | TVec t', TVec u' => sub t' u'
  | TObj l, TObj l' => forallb (fun s => mem_shape s l') l
  | TVec t', TOpt (TVec u') => sub t' u'
  | TObj l, TOpt (TObj l') => forallb (fun s => mem_shape s l') l
  | TStr, TOpt TStr => true
  | _, _ => false
  end.
Lemma sub_wt t : forall u v, sub t u = true -> wt v t -> wt v u.
Proof.
  induction t as [| | | | | |e l|t IH|t IH|l|l]; intros u v H W.
  - destruct u; try discriminate H; inversion W; subst; constructor.
  - destruct u; try discriminate H; inversion W; subst; constructor.
  - destruct u; try discriminate H; inversion W; subst; constructor.
  - destruct u; try discriminate H; inversion W; subst; constructor.
  - destruct u; try discriminate H; inversion W; subst; constructor.
  - destruct u as [| | | | | | |u| | |]; try discriminate H; [exact W|].
    destruct u; try discriminate H. constructor. exact W.
  - destruct u as [| | | | | |e' l'| | | |]; try discriminate H. cbn in H. apply andb_prop in H as [HE HL].
    apply enumt_beq_eq in HE. subst e'. inversion W; subst. constructor. rewrite forallb_forall in HL.
    apply HL in H1. unfold memNb in H1. apply existsb_exists in H1 as (m & I & E). apply N.eqb_eq in E. now subst.
  - destruct u as [| | | | | | |u| | |]; try discriminate H. inversion W; subst; [constructor|]. apply wt_some. eauto.
  - assert (K : forall u', sub t u' = true -> forall l, wtl l t -> wtl l u').
    { intros u' S l0. induction l0 as [|x l0 IHl]; intro WL; [constructor|]. inversion WL; subst. constructor; eauto. }
    destruct u as [| | | | | | |u|u| |]; try discriminate H.
    + destruct u; try discriminate H. inversion W; subst. apply wt_some. constructor. eapply K; eauto.
    + inversion W; subst. constructor. eapply K; eauto.
  - destruct u; discriminate H.
  - destruct u as [| | | | | | |u| | |l']; try discriminate H.
    + destruct u as [| | | | | | | | | |l']; try discriminate H. inversion W; subst. apply wt_some. constructor; [|assumption].
      cbn in H. rewrite forallb_forall in H. apply mem_shape_In. auto.
    + inversion W; subst. constructor; [|assumption].
      cbn in H. rewrite forallb_forall in H. apply mem_shape_In. auto.
Qed.
