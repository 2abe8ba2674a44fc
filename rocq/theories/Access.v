(** The query functions of the nodes of the object tree (/repo/src/sql/Expr.cpp, statements.cpp, SQLStatement.cpp). *)
From Verif Require Import Base LexModel Ast Heap.
Local Open Scope N_scope.

(** Comparison of two enumerators of the same type. *)
Definition same_enum (a b : val) : M bool :=
  match a, b with VEnum s n, VEnum t m => if match s, t with EExprType, EExprType | EStatementType, EStatementType => true | _, _ => false end then ret (N.eqb n m) else fail UBadValue | _, _ => fail UBadValue end.
(** Expr::isType, Expr.cpp:298. *)
Definition expr_isType (t v : val) : M bool := x <- getf F_type v ;; same_enum t x.
(** [a || b]: [b] is evaluated only if [a] is false. *)
Definition orelse (a b : M bool) : M bool := x <- a ;; if x then ret true else b.
(** Expr::isLiteral, Expr.cpp:300-303. *)
Definition expr_isLiteral (v : val) : M bool :=
  orelse (expr_isType kExprLiteralInt v) (orelse (expr_isType kExprLiteralFloat v) (orelse (expr_isType kExprLiteralString v) (orelse (expr_isType kExprParameter v)
    (orelse (expr_isType kExprLiteralNull v) (orelse (expr_isType kExprLiteralDate v) (expr_isType kExprLiteralInterval v)))))).
(** [p != nullptr] *)
Definition given (v : val) : M bool := b <- is_null v ;; ret (negb b).
(** Expr::hasAlias, Expr.cpp:305. *)
Definition expr_hasAlias (v : val) : M bool := a <- getf F_alias v ;; given a.
(** Expr::hasTable, Expr.cpp:307. *)
Definition expr_hasTable (v : val) : M bool := t <- getf F_table v ;; given t.
(** Expr::getName, Expr.cpp:309-314. *)
Definition expr_getName (v : val) : M val := a <- getf F_alias v ;; b <- given a ;; if b then ret a else getf F_name v.
(** TableRef::hasSchema, statements.cpp:400. *)
Definition table_hasSchema (v : val) : M bool := s <- getf F_schema v ;; given s.
(** TableRef::getName, statements.cpp:402-407. *)
Definition table_getName (v : val) : M val := a <- getf F_alias v ;; b <- given a ;; if b then getf F_name a else getf F_name v.
(** SQLStatement::type, SQLStatement.cpp:18; isType, line 20; is, line 22. *)
Definition stmt_type (v : val) : M val := getf F_type_ v.
Definition stmt_isType (t v : val) : M bool := x <- getf F_type_ v ;; same_enum x t.
Definition stmt_is (t v : val) : M bool := stmt_isType t v.
