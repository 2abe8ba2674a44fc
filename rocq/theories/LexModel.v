(** The scanner: model of hsql_lex (yylex) in /repo/src/parser/flex_lexer.cpp, i.e. the table driven automaton, its
    end-of-buffer handling, the actions of the rules of /repo/src/parser/flex_lexer.l and the position bookkeeping of
    YY_USER_ACTION (/repo/src/parser/bison_parser.y:47-60). *)
From Verif Require Import Base FlexTables TokenCodes LexRules.
Open Scope Z_scope.

(** YY_END_OF_BUFFER, flex_lexer.cpp:351. *)
Definition YY_END_OF_BUFFER : Z := 190.
(** The "jam" state ending the match loop, flex_lexer.cpp:3224 (while yy_current_state != 1367). *)
Definition YY_JAM : Z := 1367.

(** One transition, flex_lexer.cpp:3215-3221: follow yy_def until yy_chk agrees, then yy_nxt.  [fuel] bounds the inner
    while loop; running out of fuel or indexing a table out of bounds is [None] (excluded by a theorem). *)
Fixpoint yy_trans (fuel : nat) (s c : Z) : option Z :=
  match fuel with
  | O => None
  | S f =>
    b <-o get yy_base s ;
    k <-o get yy_chk (b + c) ;
    if k =? s then get yy_nxt (b + c)
    else
      d <-o get yy_def s ;
      if d >=? 1368 then (m <-o get yy_meta c ; yy_trans f d m) else yy_trans f d c
  end.
Definition yy_next (s c : Z) : option Z := yy_trans 20 s c.

(** The yy_match loop, flex_lexer.cpp:3206-3224.  [buf]: the buffer from yy_cp on, including the two end-of-buffer
    NULs; [pos] = yy_cp - yy_bp; [last] = (yy_last_accepting_state, yy_last_accepting_cpos - yy_bp).  Reading past the
    buffer is [None]. *)
Fixpoint yy_match (buf : bytes) (pos : nat) (s : Z) (last : option (Z * nat)) : option (option (Z * nat)) :=
  match buf with
  | [] => None
  | ch :: buf' =>
    c <-o get yy_ec (bz ch) ;
    a <-o get yy_accept s ;
    let last' := if a =? 0 then last else Some (s, pos) in
    s' <-o yy_next s c ;
    if s' =? YY_JAM then Some last' else yy_match buf' (S pos) s' last'
  end.

(** yy_get_previous_state, flex_lexer.cpp:4500-4525: re-run over the text before the end-of-buffer character, updating
    the last accepting state.  (The NUL special case of line 4509 cannot occur: the text contains no NUL.) *)
Fixpoint yy_previous (text : bytes) (pos : nat) (s : Z) (last : option (Z * nat)) : option (Z * option (Z * nat)) :=
  match text with
  | [] => Some (s, last)
  | ch :: text' =>
    c <-o get yy_ec (bz ch) ;
    a <-o get yy_accept s ;
    let last' := if a =? 0 then last else Some (s, pos) in
    s' <-o yy_next s c ;
    yy_previous text' (S pos) s' last'
  end.

(** Outcome of one scanner iteration: a rule with the length of yytext, or the end of the file. *)
Inductive lexact := ARule (r : Z) (len : nat) | AEof.

(** One iteration of the outer loop up to the action switch: flex_lexer.cpp:3195-3231 and the YY_END_OF_BUFFER case
    4228-4345 together with yy_get_next_buffer 4361-4398 (yy_fill_buffer = 0 for scanned strings).  [rest]: unread
    input without NUL; [start] = yy_start.  [None]: undefined behaviour or a fatal scanner error. *)
Definition lex_match (start : Z) (rest : bytes) : option lexact :=
  o <-o yy_match (rest ++ [NUL; NUL]) 0 start None ;
  sl <-o o ;
  a <-o get yy_accept (fst sl) ;
  if a =? 0 then None
  else if a =? YY_END_OF_BUFFER then
    (* yy_c_buf_p must be just behind the first end-of-buffer character, lines 4258 and 4373 *)
    if negb (Nat.eqb (snd sl) (S (Datatypes.length rest))) then None
    else if Nat.eqb (snd sl) 1 then Some AEof                     (* EOB_ACT_END_OF_FILE, lines 4381-4387 *)
    else                                                          (* EOB_ACT_LAST_MATCH, lines 4329-4336 *)
      pr <-o yy_previous rest 0 start None ;
      a1 <-o get yy_accept (fst pr) ;
      if a1 =? YY_END_OF_BUFFER then None
      else if a1 =? 0 then                                        (* case 0: must back up, lines 3232-3237 *)
        l2 <-o snd pr ;
        a2 <-o get yy_accept (fst l2) ;
        if (a2 =? 0) || (a2 =? YY_END_OF_BUFFER) then None else Some (ARule a2 (snd l2))
      else Some (ARule a1 (Datatypes.length rest))
  else Some (ARule a (snd sl)).

(** Position counters of YYLTYPE, /repo/src/parser/parser_typedef.h:14-28.  C ints, modelled unbounded (property C39
    bounds them by the input length). *)
Record lexpos := mkPos { fl : Z; fc : Z; ll : Z; lc : Z; total : Z; slen : Z }.

(** YY_USER_ACTION, bison_parser.y:47-60: per character. *)
Definition advance1 (p : lexpos) (c : ascii) : lexpos :=
  if byte_eqb c LF then mkPos (fl p) (fc p) (ll p + 1) 0 (total p + 1) (slen p + 1)
  else mkPos (fl p) (fc p) (ll p) (lc p + 1) (total p + 1) (slen p + 1).
Definition user_action (text : bytes) (p : lexpos) : lexpos :=
  fold_left advance1 text (mkPos (ll p) (lc p) (ll p) (lc p) (total p) (slen p)).

(** Scanner state that survives between iterations: yy_start (flex_lexer.cpp, BEGIN s sets 1 + 2*s), the thread-local
    strbuf (flex_lexer.l:21) and the location object passed by the parser. *)
Record lexst := mkLex { lx_start : Z; lx_buf : bytes; lx_pos : lexpos }.

(** Semantic values written to yylval. *)
Inductive tokval := TVNone | TVStr (s : bytes) | TVInt (z : Z) | TVFlt (text : bytes).

(** Result of running an action: continue scanning, or return a token code. *)
Inductive actres := Skip (st : lexst) | Ret (code : Z) (v : tokval) (st : lexst).

Definition LLONG_MAX : Z := 9223372036854775807.
Definition LLONG_MIN : Z := -9223372036854775808.
Definition digit_val (c : ascii) : Z := bz c - 48.
(** strtoll in a given base on a text of digits: the longest prefix of digits below the base. *)
Fixpoint digits_value (base acc : Z) (t : bytes) : Z :=
  match t with
  | [] => acc
  | c :: t' => if is_digit c && (digit_val c <? base) then digits_value base (acc * base + digit_val c) t' else acc
  end.
(** strtoll(yytext, nullptr, 0) on a text matching [0-9]+: base 8 if it starts with 0, else 10; [None] = ERANGE. *)
Definition strtoll0 (t : bytes) : option Z :=
  let v := match t with
           | c :: _ => if byte_eqb c "0"%char then digits_value 8 0 t else digits_value 10 0 t
           | [] => 0
           end in
  if v <=? LLONG_MAX then Some v else None.

(** Number of characters printed by the fprintf of flex_lexer.l:263 (its return value, returned as the token code). *)
Definition erange_msg : bytes := la "[SQL-Lexer-Error] Integer cannot be parsed - is it out of range?".

Definition token_rule (r : Z) : option Z :=
  match find (fun p => fst p =? r) token_rules with Some p => Some (snd p) | None => None end.

(** The action switch, flex_lexer.cpp:3229-4222 = the actions of flex_lexer.l:59-286.  [t] = yytext. *)
Definition run_rule (r : Z) (t : bytes) (st : lexst) : actres :=
  let st' := mkLex (lx_start st) (lx_buf st) (user_action t (lx_pos st)) in
  let begin_ s := mkLex (1 + 2 * s) (lx_buf st') (lx_pos st') in
  if r =? 1 then Skip (begin_ 2)                                          (* BEGIN(COMMENT), l.59 *)
  else if r =? 2 then Skip st'                                            (* l.60 *)
  else if r =? 3 then Skip (begin_ 0)                                     (* BEGIN(INITIAL), l.61 *)
  else if r =? 4 then Skip st'                                            (* l.63 *)
  else if r =? 177 then Ret (match t with c :: _ => bz c | [] => 0 end) TVNone st'   (* l.241 *)
  else if (r =? 178) || (r =? 179) then Ret TOK_FLOATVAL (TVFlt t) st'    (* l.243-247 *)
  else if r =? 180 then Ret TOK_INTVAL (TVInt LLONG_MIN) st'              (* l.254-257 *)
  else if r =? 181 then                                                   (* l.259-267 *)
    match strtoll0 t with
    | Some v => Ret TOK_INTVAL (TVInt v) st'
    | None => Ret (Z.of_nat (Datatypes.length erange_msg)) TVNone st'
    end
  else if r =? 182 then Ret TOK_IDENTIFIER (TVStr (removelast (tl t))) st'  (* l.269-273: substr(yytext, 1, strlen-1) *)
  else if r =? 183 then Ret TOK_IDENTIFIER (TVStr t) st'                  (* l.275-278 *)
  else if r =? 184 then Skip (mkLex 3 [] (lx_pos st'))                    (* l.280 BEGIN singlequotedstring; clear *)
  else if r =? 185 then Skip (mkLex (lx_start st') (lx_buf st' ++ [QUOTE]) (lx_pos st'))  (* l.281 *)
  else if r =? 186 then Skip (mkLex (lx_start st') (lx_buf st' ++ t) (lx_pos st'))        (* l.282 *)
  else if r =? 187 then Ret TOK_STRING (TVStr (lx_buf st')) (begin_ 0)    (* l.283 *)
  else if r =? 188 then Ret 0 TVNone st'                                  (* l.286: unknown character *)
  else if r =? 189 then Skip st'                                          (* default rule: ECHO *)
  else match token_rule r with
       | Some c => Ret c TVNone st'                                       (* TOKEN(name), l.65-239 *)
       | None => Ret 0 TVNone st'
       end.

(** A token as seen by the parser: code, value, and the state of yylloc after reading it (bison_parser.cpp:3093 passes
    &yylloc).  [t_len] = by how much string_length grew during this call of yylex. *)
Record token := mkTok { t_code : Z; t_val : tokval; t_pos : lexpos; t_len : Z }.

(** One pass through the scanner's outer loop. *)
Inductive stepres :=
| StepSkip (st : lexst) (rest : bytes)
| StepTok (code : Z) (v : tokval) (st : lexst) (rest : bytes)
| StepStuck.
Definition lex_step (st : lexst) (rest : bytes) : stepres :=
  match lex_match (lx_start st) rest with
  | None => StepStuck
  | Some AEof => StepTok 0 TVNone st rest      (* yyterminate / unterminated string: return 0; flex_lexer.cpp:4213-4227 *)
  | Some (ARule r n) =>
    match run_rule r (firstn n rest) st with
    | Skip st' => StepSkip st' (skipn n rest)
    | Ret c v st' => StepTok c v st' (skipn n rest)
    end
  end.

(** All tokens up to and including the first one with code <= 0 (end of input for the parser, bison_parser.cpp:3096-3104).
    [fuel] bounds the number of scanner iterations; [None] = scanner stuck or out of fuel (both excluded by a theorem).
    The parser calls yylex on demand; since the scanner state depends on the input only, the token sequence is a
    function of the input.  string_length is also reset by the parser; therefore tokens carry its increment. *)
Fixpoint lex_tokens (fuel : nat) (st : lexst) (len0 : Z) (rest : bytes) : option (list token) :=
  match fuel with
  | O => None
  | S f =>
    match lex_step st rest with
    | StepStuck => None
    | StepSkip st' rest' => lex_tokens f st' len0 rest'
    | StepTok c v st' rest' =>
      let t := mkTok c v (lx_pos st') (slen (lx_pos st') - len0) in
      if c <=? 0 then Some [t]
      else ts <-o lex_tokens f st' (slen (lx_pos st')) rest' ; Some (t :: ts)
    end
  end.

(** hsql__scan_string, flex_lexer.cpp:4953-4957: the bytes before the first NUL (strlen). *)
Fixpoint c_string (s : bytes) : bytes :=
  match s with [] => [] | c :: s' => if byte_eqb c NUL then [] else c :: c_string s' end.

(** Initial scanner state: yy_start = 1 (flex_lexer.cpp:3166) and the %initial-action of bison_parser.y:81-89.
    [buf0]: whatever earlier scans on this thread left in strbuf. *)
Definition pos0 : lexpos := mkPos 0 0 0 0 0 0.
Definition lex_init (buf0 : bytes) : lexst := mkLex 1 buf0 pos0.
Definition lex_all (buf0 : bytes) (sql : bytes) : option (list token) :=
  let rest := c_string sql in
  lex_tokens (S (Datatypes.length rest)) (lex_init buf0) 0 rest.
