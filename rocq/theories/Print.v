(** Printing of statements: model of /repo/src/util/sqlhelper.cpp and of operator<< in /repo/src/sql/statements.cpp:22-74.

    [None] stands for undefined behaviour: dereferencing a null or indeterminate pointer, reading an indeterminate member, accessing a member
    the object does not have (an object of another class behind a cast), or recursion that does not end (the fuel, see [print_fuel]). *)
From Verif Require Import Base Ast Own.
From Coq Require Import String. Import ListNotations.
Local Open Scope N_scope.

(** What is written.  [PDbl t]: the double atof(t) in the stream's default format (kept symbolic, as in Ast.v).  [Out i l]: a line on std::cout,
    indented by i tabs; [Err l]: a line on std::cerr. *)
Inductive piece := PTxt (b : bytes) | PInt (z : Z) | PDbl (t : bytes).
Inductive line := Out (indent : nat) (text : list piece) | Err (text : list piece).
Notation prints := (option (list line)).

(** ** Reading memory *)
(** p->f. *)
Definition mem (f : fld) (p : val) : option val := match p with VObj _ _ fs => lookup f fs | VRec fs => lookup f fs | _ => None end.
(** if (p): a pointer, null or not. *)
Definition present (p : val) : option bool := match p with VNull => Some false | VStr _ _ | VObj _ _ _ | VVec _ _ => Some true | _ => None end.
(** (const C* )p: accessing an object of another class through the result is undefined. *)
Definition cast (c : cls) (p : val) : option val := match p with VObj _ c' _ => if cls_beq c c' then Some p else None | _ => None end.
(** The characters behind a char*, the elements of *p for a vector, integers, bools, enumerators, doubles. *)
Definition chars (p : val) : option bytes := match p with VStr _ s => Some s | _ => None end.
Definition items_of (p : val) : option (list val) := match p with VVec _ l => Some l | _ => None end.
Definition int_of (p : val) : option Z := match p with VInt z => Some z | _ => None end.
Definition bool_of (p : val) : option bool := match p with VBool b => Some b | _ => None end.
Definition double_of (p : val) : option bytes := match p with VFlt t => Some t | _ => None end.
Definition enum_of (p : val) : option N := match p with VEnum _ n => Some n | _ => None end.

Fixpoint each (f : val -> prints) (l : list val) : prints :=
  match l with [] => Some [] | x :: l' => a <-o f x ; b <-o each f l' ; Some (a ++ b) end.
Fixpoint cat (l : list prints) : prints := match l with [] => Some [] | x :: l' => a <-o x ; b <-o cat l' ; Some (a ++ b) end.
(** if (p->f) body(p->f). *)
Definition if_some (f : fld) (p : val) (body : val -> prints) : prints := x <-o mem f p ; b <-o present x ; if (b : bool) then body x else Some [].
Definition on (f : fld) (p : val) (body : val -> prints) : prints := x <-o mem f p ; body x.

(** ** inprint, sqlhelper.cpp:18-32 *)
Definition text (s : bytes) (i : nat) : prints := Some [Out i [PTxt s]].
Definition txt (s : string) (i : nat) : prints := text (la s) i.                          (* inprint(const char*, ..) of a literal *)
Definition inprint_str (p : val) (i : nat) : prints := s <-o chars p ; text s i.           (* inprint(const char*, ..), line 21 *)
Definition inprint_int (p : val) (i : nat) : prints := z <-o int_of p ; Some [Out i [PInt z; PTxt (la "  ")]].  (* line 19 *)
Definition inprint_dbl (p : val) (i : nat) : prints := t <-o double_of p ; Some [Out i [PDbl t]].               (* line 20 *)

(** operator<< for OperatorType, sqlhelper.cpp:437-460: the map, in the order of the enumerators. *)
Definition operator_names : list string :=
  ["None"; "BETWEEN"; "CASE"; "CASE LIST ELEMENT"; "+"; "-"; "*"; "/"; "%"; "^"; "="; "!="; "<"; "<="; ">"; ">="; "LIKE"; "NOT LIKE"; "ILIKE"; "AND"; "OR"; "IN";
   "CONCAT"; "NOT"; "-"; "IS NULL"; "EXISTS"]%string.
(** operator<< for DatetimeField, sqlhelper.cpp:462-473. *)
Definition datetime_names : list string := ["None"; "SECOND"; "MINUTE"; "HOUR"; "DAY"; "MONTH"; "YEAR"]%string.
(** found in the map: the name; otherwise the number. *)
Definition named (names : list string) (p : val) : option piece :=
  n <-o enum_of p ; Some (match nth_error names (N.to_nat n) with Some s => PTxt (la s) | None => PInt (Z.of_N n) end).
Definition inprint_op (p : val) (i : nat) : prints := x <-o named operator_names p ; Some [Out i [x]].        (* line 26 *)
Definition inprint_field (p : val) (i : nat) : prints := x <-o named datetime_names p ; Some [Out i [x]].     (* line 30-32 *)
(** operator<< for ColumnType, statements.cpp:22-74: DataType in the order of ColumnType.h:9-26. *)
Definition type_names : list string :=
  ["UNKNOWN"; "BIGINT"; "BOOLEAN"; "CHAR("; "DATE"; "DATETIME"; "DECIMAL"; "DOUBLE"; "FLOAT"; "INT"; "LONG"; "REAL"; "SMALLINT"; "TEXT"; "TIME"; "VARCHAR("]%string.
Definition show_type (p : val) : option (list piece) :=
  n <-o obind (mem F_data_type p) enum_of ;
  let name := match nth_error type_names (N.to_nat n) with Some s => [PTxt (la s)] | None => [] end in
  if (n =? 3) || (n =? 15) then (z <-o obind (mem F_length p) int_of ; Some (name ++ [PInt z; PTxt (la ")")])) else Some name.
Definition inprint_type (p : val) (i : nat) : prints := l <-o show_type p ; Some [Out i l].                    (* line 27-29 *)
(** operator<< for FrameBound, sqlhelper.cpp:475-496. *)
Definition show_bound (p : val) : option (list piece) :=
  t <-o obind (mem F_type p) enum_of ;
  if t =? 2 then Some [PTxt (la "CURRENT ROW")]                                              (* kCurrentRow *)
  else
    u <-o obind (mem F_unbounded p) bool_of ;
    first <-o (if (u : bool) then Some (PTxt (la "UNBOUNDED")) else (z <-o obind (mem F_offset p) int_of ; Some (PInt z))) ;
    Some [first; PTxt (la " "); PTxt (if t =? 1 then la "PRECEDING" else la "FOLLOWING")].   (* kPreceding *)

(** printAlias, sqlhelper.cpp:65-74. *)
Definition print_alias (p : val) (i : nat) : prints :=
  cat [txt "Alias" (i + 1); on F_name p (fun x => inprint_str x (i + 2));
       if_some F_columns p (fun c => l <-o items_of c ; each (fun x => inprint_str x (i + 3)) l)].
(** The type of an import or export, sqlhelper.cpp:323-336, 347-360. *)
Definition print_file_type (p : val) (i : nat) : prints :=
  n <-o obind (mem F_type p) enum_of ;
  match n with 0 => txt "CSV" (i + 1) | 1 => txt "TBL" (i + 1) | 2 => txt "BINARY" (i + 1) | 3 => txt "AUTO" (i + 1) | _ => Some [] end.

(** A locking clause, sqlhelper.cpp:242-266. *)
Definition print_locking (p : val) (i : nat) : prints :=
  m <-o obind (mem F_rowLockMode p) enum_of ;
  w <-o obind (mem F_rowLockWaitPolicy p) enum_of ;
  cat [txt "Type" (i + 2);
       match m with 0 => txt "FOR UPDATE" (i + 3) | 1 => txt "FOR NO KEY UPDATE" (i + 3) | 2 => txt "FOR SHARE" (i + 3) | 3 => txt "FOR KEY SHARE" (i + 3) | _ => Some [] end;
       if_some F_tables p (fun t => l <-o items_of t ; cat [txt "Target tables:" (i + 2); each (fun x => inprint_str x (i + 3)) l]);
       if w =? 2 then Some [] else cat [txt "Waiting policy: " (i + 2); if w =? 0 then txt "NOWAIT" (i + 3) else txt "SKIP LOCKED" (i + 3)]].

(** printExpression with printOperatorExpression (sqlhelper.cpp:76-172), printOrderBy (174-184), printWindowDescription (186-215), printTableRefInfo (34-63),
    printSelectStatementInfo (217-318).  [fuel] bounds the depth of the recursion. *)
Fixpoint print_expr (fuel : nat) (p : val) (i : nat) : prints :=
  match fuel with O => None | S fuel =>
  b <-o present p ;
  if negb (b : bool) then Some [] else
  let alias := if_some F_alias p (fun x => cat [txt "Alias" (i + 1); inprint_str x (i + 2)]) in
  let all k := on F_exprList p (fun v => l <-o items_of v ; each (fun x => print_expr fuel x k) l) in
  n <-o obind (mem F_type p) enum_of ;
  match n with
  | 6 => cat [txt "*" i; alias]                                                               (* kExprStar *)
  | 8 => cat [on F_name p (fun x => inprint_str x i);
              if_some F_table p (fun x => cat [txt "Table:" (i + 1); inprint_str x (i + 2)]); alias]  (* kExprColumnRef *)
  | 0 => cat [on F_fval p (fun x => inprint_dbl x i); alias]                                  (* kExprLiteralFloat *)
  | 2 => cat [on F_ival p (fun x => inprint_int x i); alias]                                  (* kExprLiteralInt *)
  | 1 => cat [on F_name p (fun x => inprint_str x i); alias]                                  (* kExprLiteralString *)
  | 4 => cat [on F_name p (fun x => inprint_str x i); alias]                                  (* kExprLiteralDate *)
  | 3 => cat [txt "NULL" i; alias]                                                            (* kExprLiteralNull *)
  | 5 => cat [txt "INTERVAL" i; on F_ival p (fun x => inprint_int x (i + 1)); on F_datetimeField p (fun x => inprint_field x (i + 1)); alias] (* kExprLiteralInterval *)
  | 9 => cat [on F_name p (fun x => inprint_str x i); all (i + 1)%nat;
              if_some F_windowDescription p (fun w => print_window fuel w (i + 1)); alias]    (* kExprFunctionRef *)
  | 15 => cat [txt "EXTRACT" i; on F_datetimeField p (fun x => inprint_field x (i + 1)); on F_expr p (fun x => print_expr fuel x (i + 1)); alias]
  | 16 => cat [txt "CAST" i; on F_columnType p (fun x => inprint_type x (i + 1)); on F_expr p (fun x => print_expr fuel x (i + 1)); alias]
  | 10 =>                                                                                     (* kExprOperator: printOperatorExpression *)
    cat [on F_opType p (fun x => inprint_op x i); on F_expr p (fun x => print_expr fuel x (i + 1));
         on F_expr2 p (fun x => b <-o present x ;
           if (b : bool) then print_expr fuel x (i + 1)
           else if_some F_exprList p (fun v => l <-o items_of v ; each (fun y => print_expr fuel y (i + 1)) l)); alias]
  | 11 => cat [on F_select p (fun x => print_select fuel x i); alias]                         (* kExprSelect *)
  | 7 => cat [on F_ival p (fun x => inprint_int x i); alias]                                  (* kExprParameter *)
  | 13 => cat [all (i + 1)%nat; alias]                                                        (* kExprArray *)
  | 14 => cat [on F_expr p (fun x => print_expr fuel x (i + 1)); on F_ival p (fun x => inprint_int x i); alias] (* kExprArrayIndex *)
  | _ => Some [Err [PTxt (la "Unrecognized expression type "); PInt (Z.of_N n)]]              (* default: return *)
  end
  end
with print_order (fuel : nat) (p : val) (i : nat) : prints :=
  match fuel with O => None | S fuel =>
  b <-o present p ;
  if negb (b : bool) then Some [] else
  l <-o items_of p ;
  each (fun o => cat [on F_expr o (fun x => print_expr fuel x i);
                      n <-o obind (mem F_type o) enum_of ; if n =? 0 then txt "ascending" i else txt "descending" i]) l
  end
with print_window (fuel : nat) (p : val) (i : nat) : prints :=
  match fuel with O => None | S fuel =>
  cat [txt "OVER" i;
       if_some F_partitionList p (fun v => l <-o items_of v ; cat [txt "PARTITION BY" (i + 1); each (fun x => print_expr fuel x (i + 2)) l]);
       if_some F_orderList p (fun v => cat [txt "ORDER BY" (i + 1); print_order fuel v (i + 2)]);
       on F_frameDescription p (fun f =>
         n <-o obind (mem F_type f) enum_of ;
         s <-o obind (mem F_start f) show_bound ;
         e <-o obind (mem F_end f) show_bound ;
         Some [Out (i + 1) ([PTxt (match n with 1 => la "ROWS" | 0 => la "RANGE" | 2 => la "GROUPS" | _ => [] end); PTxt (la " BETWEEN ")] ++ s ++ [PTxt (la " AND ")] ++ e)])]
  end
with print_ref (fuel : nat) (p : val) (i : nat) : prints :=
  match fuel with O => None | S fuel =>
  n <-o obind (mem F_type p) enum_of ;
  cat [match n with
       | 0 => cat [on F_name p (fun x => inprint_str x i); if_some F_schema p (fun x => cat [txt "Schema" (i + 1); inprint_str x (i + 2)])]  (* kTableName *)
       | 1 => on F_select p (fun x => print_select fuel x i)                                  (* kTableSelect *)
       | 2 => on F_join p (fun j =>                                                           (* kTableJoin *)
           cat [txt "Join Table" i; txt "Left" (i + 1); on F_left j (fun x => print_ref fuel x (i + 2)); txt "Right" (i + 1);
                on F_right j (fun x => print_ref fuel x (i + 2)); txt "Join Condition" (i + 1); on F_condition j (fun x => print_expr fuel x (i + 2))])
       | 3 => on F_list p (fun v => l <-o items_of v ; each (fun x => print_ref fuel x i) l)  (* kTableCrossProduct *)
       | _ => Some []
       end;
       if_some F_alias p (fun x => print_alias x i)]
  end
with print_select (fuel : nat) (p : val) (i : nat) : prints :=
  match fuel with O => None | S fuel =>
  cat [txt "SelectStatement" i; txt "Fields:" (i + 1);
       on F_selectList p (fun v => l <-o items_of v ; each (fun x => print_expr fuel x (i + 2)) l);
       if_some F_fromTable p (fun x => cat [txt "Sources:" (i + 1); print_ref fuel x (i + 2)]);
       if_some F_whereClause p (fun x => cat [txt "Search Conditions:" (i + 1); print_expr fuel x (i + 2)]);
       if_some F_groupBy p (fun g => cat [txt "GroupBy:" (i + 1); on F_columns g (fun v => l <-o items_of v ; each (fun x => print_expr fuel x (i + 2)) l);
                                          if_some F_having g (fun x => cat [txt "Having:" (i + 1); print_expr fuel x (i + 2)])]);
       if_some F_lockings p (fun v => l <-o items_of v ; cat [txt "Lock Info:" (i + 1); each (fun x => print_locking x i) l]);
       if_some F_setOperations p (fun v => l <-o items_of v ; each (fun s =>
         n <-o obind (mem F_setType s) enum_of ;
         cat [match n with 1 => txt "Intersect:" (i + 1) | 0 => txt "Union:" (i + 1) | 2 => txt "Except:" (i + 1) | _ => Some [] end;
              on F_nestedSelectStatement s (fun x => print_select fuel x (i + 2));
              if_some F_resultOrder s (fun x => cat [txt "SetResultOrderBy:" (i + 1); print_order fuel x (i + 2)]);
              if_some F_resultLimit s (fun d =>
                cat [if_some F_limit d (fun x => cat [txt "SetResultLimit:" (i + 1); print_expr fuel x (i + 2)]);
                     if_some F_offset d (fun x => cat [txt "SetResultOffset:" (i + 1); print_expr fuel x (i + 2)])])]) l);
       if_some F_order p (fun x => cat [txt "OrderBy:" (i + 1); print_order fuel x (i + 2)]);
       if_some F_limit p (fun d => if_some F_limit d (fun x => cat [txt "Limit:" (i + 1); print_expr fuel x (i + 2)]));
       if_some F_limit p (fun d => if_some F_offset d (fun x => cat [txt "Offset:" (i + 1); print_expr fuel x (i + 2)]))]
  end.

(** printImportStatementInfo, sqlhelper.cpp:320-342. *)
Definition print_import (fuel : nat) (p : val) (i : nat) : prints :=
  cat [txt "ImportStatement" i; on F_filePath p (fun x => inprint_str x (i + 1)); print_file_type p i; on F_tableName p (fun x => inprint_str x (i + 1));
       if_some F_whereClause p (fun x => cat [txt "WHERE:" (i + 1); print_expr fuel x (i + 2)])].
(** printExportStatementInfo, sqlhelper.cpp:344-367. *)
Definition print_export (fuel : nat) (p : val) (i : nat) : prints :=
  cat [txt "ExportStatement" i; on F_filePath p (fun x => inprint_str x (i + 1)); print_file_type p i;
       on F_tableName p (fun t => b <-o present t ; if (b : bool) then inprint_str t (i + 1) else on F_select p (fun x => print_select fuel x (i + 1)))].
(** printCreateStatementInfo, sqlhelper.cpp:369-373. *)
Definition print_create (p : val) (i : nat) : prints :=
  cat [txt "CreateStatement" i; on F_tableName p (fun x => inprint_str x (i + 1)); if_some F_filePath p (fun x => inprint_str x (i + 1))].
(** printInsertStatementInfo, sqlhelper.cpp:375-395. *)
Definition print_insert (fuel : nat) (p : val) (i : nat) : prints :=
  n <-o obind (mem F_type p) enum_of ;
  cat [txt "InsertStatement" i; on F_tableName p (fun x => inprint_str x (i + 1));
       if_some F_columns p (fun c => l <-o items_of c ; cat [txt "Columns" (i + 1); each (fun x => inprint_str x (i + 2)) l]);
       match n with
       | 0 => cat [txt "Values" (i + 1); on F_values p (fun v => l <-o items_of v ; each (fun x => print_expr fuel x (i + 2)) l)]   (* kInsertValues *)
       | 1 => on F_select p (fun x => print_select fuel x (i + 1))                            (* kInsertSelect *)
       | _ => Some []
       end].
(** printTransactionStatementInfo, sqlhelper.cpp:397-410. *)
Definition print_transaction (p : val) (i : nat) : prints :=
  n <-o obind (mem F_command p) enum_of ;
  cat [txt "TransactionStatement" i;
       match n with 0 => txt "BEGIN" (i + 1) | 1 => txt "COMMIT" (i + 1) | 2 => txt "ROLLBACK" (i + 1) | _ => Some [] end].
(** printStatementInfo, sqlhelper.cpp:412-435.  The fuel is the number of nodes of the statement. *)
Definition print_fuel (p : val) : nat := S (vsize p).
Definition printStatementInfo (p : val) : prints :=
  n <-o obind (mem F_type_ p) enum_of ;
  match n with
  | 1 => p <-o cast CSelectStatement p ; print_select (print_fuel p) p 0          (* kStmtSelect *)
  | 3 => p <-o cast CInsertStatement p ; print_insert (print_fuel p) p 0          (* kStmtInsert *)
  | 6 => p <-o cast CCreateStatement p ; print_create p 0                         (* kStmtCreate *)
  | 2 => p <-o cast CImportStatement p ; print_import (print_fuel p) p 0          (* kStmtImport *)
  | 10 => p <-o cast CExportStatement p ; print_export (print_fuel p) p 0         (* kStmtExport *)
  | 14 => p <-o cast CTransactionStatement p ; print_transaction p 0                   (* kStmtTransaction *)
  | _ => Some []
  end.
