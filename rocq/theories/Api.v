(** The public interface: SQLParser (/repo/src/SQLParser.cpp) and SQLParserResult (/repo/src/SQLParserResult.cpp). *)
From Verif Require Import Base TokenCodes LexModel Ast Heap Actions ParseModel.
Open Scope Z_scope.

(** A freshly started process: empty heap; the result object is the one of the default constructor,
    SQLParserResult.cpp:7 (errorLine_ and errorColumn_ are left indeterminate). *)
Definition fresh_env : env :=
  mkEnv 1 [] false [] VNull VUninit VUninit [] [] (mkLoc 0 0 0 0) pos0.

(** SQLParser::parse, SQLParser.cpp:13-35, always returns true.  [buf0]: leftover of the thread-local string buffer of the
    scanner.  The scanner's own allocations (hsql_lex_init, the buffer copy; freed in lines 31-32) are not part of
    this definition but of parse_full, Session.v; hsql_lex_init does not fail.  [e]: state before the call (heap and result object). *)
Definition parse (buf0 sql : bytes) (e : env) : parse_out :=
  match lex_all buf0 sql with
  | None => PUB UTable
  | Some ts =>
    match yyparse ts e with
    | PRet r e' => PRet r (set_valid (r =? 0) e')
    | o => o
    end
  end.

(** int16_t conversion (SQLParser.cpp:59-62). *)
Definition to_int16 (z : Z) : Z := let m := z mod 65536 in if m <? 32768 then m else m - 65536.
(** SQLParser::tokenize, SQLParser.cpp:43-72: the codes of all tokens before the first 0. *)
Fixpoint token_codes (ts : list token) : list Z :=
  match ts with
  | [] => []
  | t :: ts' => let c := to_int16 (t_code t) in if c =? 0 then [] else c :: token_codes ts'
  end.
Definition tokenize (buf0 sql : bytes) : option (list Z) :=
  ts <-o lex_all buf0 sql ; Some (token_codes ts).

(** ** SQLParserResult *)
(** The members of SQLParserResult, SQLParserResult.h:73-90. *)
Record result := mkRes { r_valid : bool; r_stmts : list val; r_msg : val; r_line : val; r_col : val; r_params : list (N * Z) }.
(** The result object a parse works on, and the rest of the machine. *)
Definition the_result (e : env) : result := mkRes (e_valid e) (e_stmts e) (e_msg e) (e_line e) (e_col e) (e_params e).
Definition with_result (r : result) (e : env) : env :=
  mkEnv (e_next e) (e_live e) (r_valid r) (r_stmts r) (r_msg r) (r_line r) (r_col r) (r_params r) (e_plist e) (e_loc e) (e_lpos e).
(** SQLParserResult(), SQLParserResult.cpp:7: errorLine_ and errorColumn_ stay indeterminate. *)
Definition ctor : result := mkRes false [] VNull VUninit VUninit [].
(** SQLParserResult(SQLStatement* ), SQLParserResult.cpp:9. *)
Definition ctor_stmt (s : val) : result := mkRes false [s] VNull VUninit VUninit [].
(** size(), SQLParserResult.cpp:32. *)
Definition r_size (r : result) : nat := List.length (r_stmts r).
(** reset(), SQLParserResult.cpp:60-72: parameters_ is not touched. *)
Definition reset (r : result) : M result :=
  del_all (r_stmts r) ;; free_ (r_msg r) ;; ret (mkRes false [] VNull (VInt (-1)) (VInt (-1)) (r_params r)).
(** ~SQLParserResult(), SQLParserResult.cpp:24. *)
Definition destroy (r : result) : M unit := reset r ;; ret tt.
(** releaseStatements(), SQLParserResult.cpp:52-58: the statements and the result afterwards. *)
Definition releaseStatements (r : result) : list val * result :=
  (r_stmts r, mkRes (r_valid r) [] (r_msg r) (r_line r) (r_col r) (r_params r)).
(** operator=(SQLParserResult&&), SQLParserResult.cpp:14-22, for two different objects: target and source afterwards.  The
    move assignment of std::vector leaves the source empty and forgets the target's pointers. *)
Definition move_assign (dst src : result) : M (result * result) :=
  let dst' := mkRes (r_valid src) (r_stmts src) (r_msg src) (r_line dst) (r_col dst) (r_params dst) in
  src' <- reset (mkRes (r_valid src) [] VNull (r_line src) (r_col src) (r_params src)) ;;
  ret (dst', src').
(** SQLParserResult(SQLParserResult&&), SQLParserResult.cpp:12: default initialised members, then operator=. *)
Definition move_ctor (src : result) : M (result * result) :=
  move_assign (mkRes false [] VUninit VUninit VUninit []) src.
(** parse(sql, &r) in a machine with the heap of [e]. *)
Definition parse_into (buf0 sql : bytes) (r : result) (e : env) : parse_out := parse buf0 sql (with_result r e).
