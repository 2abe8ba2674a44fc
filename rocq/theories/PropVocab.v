(** The vocabulary of the specifications: laws that fix, without the definitions of the model, what the shared helpers in the statements of
    C03, C06, C07 and C25-C44 mean: reading a member ([fget]), changing it ([update]), the two records that are returned by value, the enumerators. *)
From Verif Require Import Base TokenCodes LexModel Ast Heap Actions ParseModel Api Print History Grammar Sem.
Open Scope nat_scope.

(** All enumerators of the headers (/repo/src/sql/*.h), as the object trees contain them. *)
Definition enumerators : list val :=
  [kExprLiteralFloat; kExprLiteralString; kExprLiteralInt; kExprLiteralNull; kExprLiteralDate; kExprLiteralInterval; kExprStar; kExprParameter;
   kExprColumnRef; kExprFunctionRef; kExprOperator; kExprSelect; kExprHint; kExprArray; kExprArrayIndex; kExprExtract; kExprCast; kOpNone; kOpBetween;
   kOpCase; kOpCaseListElement; kOpPlus; kOpMinus; kOpAsterisk; kOpSlash; kOpPercentage; kOpCaret; kOpEquals; kOpNotEquals; kOpLess; kOpLessEq;
   kOpGreater; kOpGreaterEq; kOpLike; kOpNotLike; kOpILike; kOpAnd; kOpOr; kOpIn; kOpConcat; kOpNot; kOpUnaryMinus; kOpIsNull; kOpExists; kDatetimeNone;
   kDatetimeSecond; kDatetimeMinute; kDatetimeHour; kDatetimeDay; kDatetimeMonth; kDatetimeYear; kFollowing; kPreceding; kCurrentRow; kRange; kRows;
   kGroups; kStmtSelect; kStmtImport; kStmtInsert; kStmtUpdate; kStmtDelete; kStmtCreate; kStmtDrop; kStmtPrepare; kStmtExecute; kStmtExport; kStmtAlter;
   kStmtShow; kStmtTransaction; kOrderAsc; kOrderDesc; NullOrdering_Undefined; NullOrdering_First; NullOrdering_Last; kSetUnion; kSetIntersect;
   kSetExcept; ForUpdate; ForNoKeyUpdate; ForShare; ForKeyShare; NoWait; SkipLocked; LockNone; kTableName; kTableSelect; kTableJoin; kTableCrossProduct;
   kJoinInner; kJoinFull; kJoinLeft; kJoinRight; kJoinCross; kJoinNatural; ForeignKey; NotNull; CNull; PrimaryKey; Unique; kCreateTable;
   kCreateTableFromTbl; kCreateView; kCreateIndex; kImportCSV; kImportTbl; kImportBinary; kImportAuto; CsvDelimiter; CsvNull; CsvQuote; ActionDropColumn;
   kInsertValues; kInsertSelect; kShowColumns; kShowTables; kDropTable; kDropIndex; kDropView; kDropPreparedStatement; kBeginTransaction;
   kCommitTransaction; kRollbackTransaction; DT_UNKNOWN; DT_BIGINT; DT_BOOLEAN; DT_CHAR; DT_DATE; DT_DATETIME; DT_DECIMAL; DT_DOUBLE; DT_FLOAT; DT_INT;
   DT_LONG; DT_REAL; DT_SMALLINT; DT_TEXT; DT_TIME; DT_VARCHAR].

Lemma lookup_update f x fs : lookup f fs <> None -> lookup f (update f x fs) = Some x.
Proof.
  induction fs as [|[g y] fs IH]; cbn [lookup update]; intro H; [now elim H|]. destruct (fld_beq f g) eqn:E; cbn [lookup]; rewrite E; [reflexivity|]. now apply IH.
Qed.
Lemma fld_beq_same f : fld_beq f f = true. Proof. destruct f; reflexivity. Qed.
Lemma fld_beq_eq f g : fld_beq f g = true -> f = g. Proof. destruct f, g; intro H; (reflexivity || discriminate H). Qed.
Lemma lookup_update_other f g x fs : f <> g -> lookup g (update f x fs) = lookup g fs.
Proof.
  intro N. induction fs as [|[h y] fs IH]; cbn [lookup update]; [reflexivity|]. destruct (fld_beq f h) eqn:E; cbn [lookup].
  - apply fld_beq_eq in E. subst h. destruct (fld_beq g f) eqn:E; [|reflexivity]. apply fld_beq_eq in E. congruence.
  - destruct (fld_beq g h); [reflexivity|exact IH].
Qed.

Theorem C03_vocabulary :
  (* an object has the member its list of members says, and no other *)
  (forall b c fs f x, In (f, x) fs -> NoDup (map fst fs) -> fget f (VObj b c fs) = x) /\
  (* assignment to a member changes that member and no other *)
  (forall b c fs f x, In f (map fst fs) -> fget f (VObj b c (update f x fs)) = x) /\
  (forall b c fs f g x, f <> g -> fget g (VObj b c (update f x fs)) = fget g (VObj b c fs)) /\
  (* ColumnType and TableName *)
  (forall t l p s, let v := mk_column_type t l p s in fget F_data_type v = t /\ fget F_length v = VInt l /\ fget F_precision v = VInt p /\ fget F_scale v = VInt s) /\
  (forall s n, let v := mk_table_name s n in fget F_schema v = s /\ fget F_name v = n) /\
  (* no two enumerators are the same value, and [enum_is] tells them apart *)
  NoDup enumerators /\ (forall a b, In a enumerators -> In b enumerators -> (enum_is a b = true <-> a = b)).
Proof.
  split; [|split; [|split; [|split; [|split; [|split]]]]].
  - intros b c fs f x I N. cbn [fget]. induction fs as [|[g y] fs IH]; [destruct I|]. cbn [lookup map fst] in *. inversion N as [|? ? NI N']; subst.
    destruct I as [I|I]; [injection I as -> ->; now rewrite fld_beq_same|]. destruct (fld_beq f g) eqn:E; [|now apply IH]. apply fld_beq_eq in E. subst g. elim NI. apply (in_map fst) in I. exact I.
  - intros b c fs f x I. cbn [fget]. rewrite lookup_update; [reflexivity|]. induction fs as [|[g y] fs IH]; [destruct I|]. cbn [lookup map fst] in *. destruct I as [->|I]; [now rewrite fld_beq_same|]. destruct (fld_beq f g); [discriminate|now apply IH].
  - intros b c fs f g x N. cbn [fget]. now rewrite lookup_update_other.
  - intros. repeat split.
  - intros. split; reflexivity.
  - assert (E : forall l, (forallb (fun v => match v with VEnum _ _ => true | _ => false end) l && (fix go l := match l with [] => true | x :: r => negb (existsb (enum_is x) r) && go r end) l)%bool = true -> NoDup l).
    { induction l as [|x l IH]; [constructor|]. intro H. cbn [forallb] in H. apply andb_prop in H as [H1 H2]. apply andb_prop in H1 as [X F]. apply andb_prop in H2 as [H2 H3]. constructor; [|apply IH; now rewrite F, H3].
      intro I. apply Bool.negb_true_iff in H2. rewrite <- Bool.not_true_iff_false in H2. apply H2. apply existsb_exists. exists x. split; [exact I|]. destruct x; try discriminate X. cbn [enum_is]. destruct e; cbn [enumt_beq andb]; apply N.eqb_refl. }
    apply E. vm_compute. reflexivity.
  - assert (F : forallb (fun v => match v with VEnum _ _ => true | _ => false end) enumerators = true) by reflexivity. rewrite forallb_forall in F.
    intros a b IA IB. apply F in IA, IB. destruct a; try discriminate IA. destruct b; try discriminate IB. cbn [enum_is]. split.
    + intro H. apply andb_prop in H as [H1 H2]. apply N.eqb_eq in H2. subst. destruct e, e0; (reflexivity || discriminate H1).
    + intro H. injection H as -> ->. destruct e0; cbn [enumt_beq andb]; apply N.eqb_refl.
Qed.
Example C03_vocabulary_example : List.length enumerators = 139 /\ fget F_scale (mk_column_type DT_DECIMAL 0 5 2) = VInt 2 /\ enum_is kOpPlus kOpMinus = false /\ enum_is kOpPlus kOpPlus = true.
Proof. vm_compute. repeat split. Qed.
