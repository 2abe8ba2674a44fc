(** SQLParser::parse and SQLParser::tokenize in full: with the scanner object, its memory blocks and its buffer, on the machine of Heap.v.  (Api.v describes the same calls
    without the scanner's memory.) *)
From Verif Require Import Base FlexTables TokenCodes LexRules LexModel Ast Heap Actions ParseModel Api Scan.
Local Open Scope N_scope.

(** A scanner object (yyscan_t): the block of its struct yyguts_t, the block of yy_buffer_stack (null in a new scanner), and the current buffer, the stack's only entry: the
    block of its struct yy_buffer_state and the block yy_ch_buf (flex_lexer.cpp:2923-2958, 200-260).  yy_start_stack is always null. *)
Record lexer := mkLexer { y_guts : N; y_stack : option N; y_current : option (N * N) }.
(** hsql_lex_init, flex_lexer.cpp:5205-5224 (it fails only if malloc does). *)
Definition lex_init_ : M lexer := a <- alloc ;; ret (mkLexer a None None).
(** hsql_ensure_buffer_stack, flex_lexer.cpp:4863-4908: the first allocation; later calls enlarge the stack with realloc when yy_buffer_stack_top is its last entry, which it
    is since there is only one. *)
Definition ensure_buffer_stack (l : lexer) : M lexer :=
  check (y_guts l) ;;
  match y_stack l with
  | None => k <- alloc ;; ret (mkLexer (y_guts l) (Some k) (y_current l))
  | Some k => release k ;; k' <- alloc ;; ret (mkLexer (y_guts l) (Some k') (y_current l))
  end.
(** YY_CURRENT_BUFFER, flex_lexer.cpp:291-293: reads the stack if there is one. *)
Definition current_buffer (l : lexer) : M (option (N * N)) :=
  check (y_guts l) ;; match y_stack l with None => ret None | Some k => check k ;; ret (y_current l) end.
(** hsql__scan_string, flex_lexer.cpp:4953-4957, with hsql__scan_bytes (4966-4991), hsql__scan_buffer (4916-4943) and hsql__switch_to_buffer (4661-4690): the blocks.  (The
    buffer's contents are in [scan_string], Scan.v.)  An old current buffer is not written to here: SQLParser only calls this on a new scanner. *)
Definition scan_string_ (l : lexer) : M ((N * N) * lexer) :=
  check (y_guts l) ;;
  ch <- alloc ;;
  st <- alloc ;;
  l' <- ensure_buffer_stack l ;;
  _ <- current_buffer l' ;;
  ret ((st, ch), mkLexer (y_guts l') (y_stack l') (Some (st, ch))).
(** hsql__delete_buffer, flex_lexer.cpp:4736-4750; yy_is_our_buffer is 1 (4988). *)
Definition delete_buffer (b : N * N) (l : lexer) : M lexer :=
  c <- current_buffer l ;;
  let l' := match c with Some c' => if fst c' =? fst b then mkLexer (y_guts l) (y_stack l) None else l | None => l end in
  check (fst b) ;;
  release (snd b) ;;
  release (fst b) ;;
  ret l'.
(** hsql_lex_destroy, flex_lexer.cpp:5290-5316, with hsql_pop_buffer_state (4840-4856, nothing to do: the loop has set the current buffer to null). *)
Definition lex_destroy (l : lexer) : M unit :=
  c <- current_buffer l ;;
  l' <- match c with Some b => delete_buffer b l | None => ret l end ;;
  match y_stack l' with Some k => release k | None => ret tt end ;;
  release (y_guts l').

(** The blocks hsql_lex works on are alive. *)
Definition lexer_alive (l : lexer) : M unit :=
  c <- current_buffer l ;; match c with Some b => check (fst b) ;; check (snd b) | None => fail UNullDeref end.

(** SQLParser::parse, SQLParser.cpp:13-35.  The parser calls hsql_lex during yyparse, but only hsql_lex uses the scanner's blocks, and it only uses these: the tokens are read
    first (scan_all), and the blocks are checked before and after yyparse (a block that is alive at both times was alive in between: addresses are not used twice). *)
Definition parse_full (buf0 sql : bytes) (e : env) : parse_out :=
  match (l <- lex_init_ ;; bl <- scan_string_ l ;; lexer_alive (snd bl) ;; ret bl) e with
  | RUB u => PUB u
  | RErr _ => PUB UTable
  | ROk (b, l) e1 =>
    match scan_all buf0 sql with
    | None => PUB UTable
    | Some ts =>
      match yyparse ts e1 with
      | PRet r e2 =>
        match (lexer_alive l ;; l' <- delete_buffer b l ;; lex_destroy l') (set_valid (r =? 0)%Z e2) with
        | ROk _ e3 => PRet r e3
        | RErr _ => PUB UTable
        | RUB u => PUB u
        end
      | o => o
      end
    end
  end.

(** The loop of SQLParser::tokenize, SQLParser.cpp:59-67: [c] is the variable token, [ts] what the following calls of hsql_lex return, [out] the vector.  The value of a token is
    that of read_token (token_value, ParseModel.v): a string is a block of its own. *)
Fixpoint tokenize_loop (c : Z) (ts : list token) (out : list Z) : M (list Z) :=
  if (c =? 0)%Z then ret out
  else match ts with
       | [] => fail UTable
       | t :: ts' =>
         v <- token_value (t_val t) ;;
         let c' := to_int16 (t_code t) in
         (if (c' =? TOK_IDENTIFIER)%Z || (c' =? TOK_STRING)%Z then free_ v else ret tt) ;;
         tokenize_loop c' ts' (out ++ [c])
       end.
(** SQLParser::tokenize, SQLParser.cpp:43-72: the vector's contents afterwards ([out]: before).  [yylloc]: the members of the local variable yylloc, which is not initialised
    (line 54).  Always returns true. *)
Definition tokenize_full (buf0 sql : bytes) (yylloc : lexpos) (out : list Z) : M (list Z) :=
  l <- lex_init_ ;;
  bl <- scan_string_ l ;;
  lexer_alive (snd bl) ;;
  match (g <-o scan_string sql ; scan_tokens (S (List.length (c_string sql))) g buf0 yylloc) with
  | Some (t :: ts) =>
    _ <- token_value (t_val t) ;;
    r <- tokenize_loop (to_int16 (t_code t)) ts out ;;
    lexer_alive (snd bl) ;;
    l' <- delete_buffer (fst bl) (snd bl) ;;
    lex_destroy l' ;;
    ret r
  | _ => fail UTable
  end.
