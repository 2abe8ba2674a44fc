(** The scanner at the level of its input buffer: the same hsql_lex as in LexModel.v, but with yy_ch_buf as an array that is read and written in place, pointers into it
    as offsets, the saved character under the terminating NUL of yytext, and the scanner's own memory blocks.  Reading or writing outside the array, using the null
    pointer yy_last_accepting_cpos, and YY_FATAL_ERROR (which ends the process) are [None]. *)
From Verif Require Import Base FlexTables TokenCodes LexRules LexModel Ast Heap Actions ParseModel Api.
Local Open Scope Z_scope.

(** Access to the array, bounds checked. *)
Definition rd (mem : bytes) (i : nat) : option ascii := nth_error mem i.
Definition wr (mem : bytes) (i : nat) (c : ascii) : option bytes :=
  if (i <? List.length mem)%nat then Some (firstn i mem ++ c :: skipn (S i) mem) else None.

(** The members of yyguts_t and of the current yy_buffer_state that hsql_lex uses (flex_lexer.cpp:2923-2958, 200-260): the array yy_ch_buf, yy_n_chars of the buffer, whether
    yy_buffer_status is YY_BUFFER_NEW, yy_n_chars of the scanner, yy_c_buf_p, yy_hold_char, yytext_ptr, yy_start, and the last accepting state with its position (null
    before the first one).  yy_fill_buffer is 0 for scanned strings (flex_lexer.cpp:4937); YY_MORE_ADJ is 0. *)
Record scanner := mkScan {
  g_mem : bytes; b_nchars : nat; b_new : bool; g_nchars : nat; g_cbuf : nat; g_hold : ascii; g_text : nat; g_start : Z; g_last : option (Z * nat) }.
Definition set_mem (m : bytes) (g : scanner) : scanner := mkScan m (b_nchars g) (b_new g) (g_nchars g) (g_cbuf g) (g_hold g) (g_text g) (g_start g) (g_last g).
Definition set_cbuf (p : nat) (g : scanner) : scanner := mkScan (g_mem g) (b_nchars g) (b_new g) (g_nchars g) p (g_hold g) (g_text g) (g_start g) (g_last g).
Definition set_last (l : option (Z * nat)) (g : scanner) : scanner := mkScan (g_mem g) (b_nchars g) (b_new g) (g_nchars g) (g_cbuf g) (g_hold g) (g_text g) (g_start g) l.
Definition set_start (s : Z) (g : scanner) : scanner := mkScan (g_mem g) (b_nchars g) (b_new g) (g_nchars g) (g_cbuf g) (g_hold g) (g_text g) s (g_last g).

(** The yy_match loop, flex_lexer.cpp:3207-3226: returns yy_last_accepting_state and yy_last_accepting_cpos.  [fuel]: the pointer can only advance as often as there are bytes. *)
Fixpoint match_loop (fuel : nat) (mem : bytes) (cp : nat) (s : Z) (last : option (Z * nat)) : option (option (Z * nat)) :=
  match fuel with
  | O => None
  | S f =>
    ch <-o rd mem cp ;
    c <-o get yy_ec (bz ch) ;
    a <-o get yy_accept s ;
    let last' := if a =? 0 then last else Some (s, cp) in
    s' <-o yy_next s c ;
    if s' =? YY_JAM then Some last' else match_loop f mem (S cp) s' last'
  end.
(** yy_get_previous_state, flex_lexer.cpp:4501-4526: from yytext_ptr to yy_c_buf_p; a NUL byte has class 1.  [n] = yy_c_buf_p - yy_cp. *)
Fixpoint previous_loop (n : nat) (mem : bytes) (cp : nat) (s : Z) (last : option (Z * nat)) : option (Z * option (Z * nat)) :=
  match n with
  | O => Some (s, last)
  | S n' =>
    ch <-o rd mem cp ;
    c <-o (if byte_eqb ch NUL then Some 1 else get yy_ec (bz ch)) ;
    a <-o get yy_accept s ;
    let last' := if a =? 0 then last else Some (s, cp) in
    s' <-o yy_next s c ;
    previous_loop n' mem (S cp) s' last'
  end.
Definition previous_state (g : scanner) : option (Z * option (Z * nat)) := previous_loop (g_cbuf g - g_text g) (g_mem g) (g_text g) (g_start g) (g_last g).
(** yy_try_NUL_trans, flex_lexer.cpp:4534-4557: the next state (0 for a jam) and the last accepting state. *)
Definition try_NUL (s : Z) (g : scanner) : option (Z * option (Z * nat)) :=
  a <-o get yy_accept s ;
  let last' := if a =? 0 then g_last g else Some (s, g_cbuf g) in
  s' <-o yy_next s 1 ;
  Some (if s' =? YY_JAM then 0 else s', last').

(** The action to run next: a rule (with yytext set up) or an end-of-file action. *)
Inductive outcome := SRule (r : Z) (g : scanner) | SEof (g : scanner).
(** From yy_find_action to the action switch, flex_lexer.cpp:3229-3243, with YY_DO_BEFORE_ACTION (343-348), case 0 (3238-3243), case YY_END_OF_BUFFER (4228-4345) and
    yy_get_next_buffer (4366-4398; the rest of it is for yy_fill_buffer <> 0).  [fuel] bounds the number of jumps back to the labels yy_match and yy_find_action. *)
Fixpoint find_action (fuel : nat) (g : scanner) (cp bp : nat) (s : Z) : option outcome :=
  match fuel with
  | O => None
  | S f =>
    act <-o get yy_accept s ;
    h <-o rd (g_mem g) cp ;
    m1 <-o wr (g_mem g) cp NUL ;
    let g1 := mkScan m1 (b_nchars g) (b_new g) (g_nchars g) cp h bp (g_start g) (g_last g) in
    if act =? 0 then
      m2 <-o wr m1 cp h ; l <-o g_last g ; find_action f (set_mem m2 g1) (snd l) bp (fst l)
    else if act =? YY_END_OF_BUFFER then
      m2 <-o wr m1 cp h ;
      let g2 := if b_new g then mkScan m2 (b_nchars g) false (b_nchars g) cp h bp (g_start g) (g_last g) else set_mem m2 g1 in
      if (g_cbuf g2 <=? g_nchars g2)%nat then          (* this was really a NUL *)
        let g3 := set_cbuf (g_text g2 + (cp - bp - 1)) g2 in
        p <-o previous_state g3 ;
        let g4 := set_last (snd p) g3 in
        t <-o try_NUL (fst p) g4 ;
        if fst t =? 0 then l <-o snd t ; find_action f (set_last (snd t) g4) (snd l) bp (fst l)
        else
          let g5 := set_cbuf (S (g_cbuf g4)) (set_last (snd t) g4) in
          o <-o match_loop (S (List.length (g_mem g5))) (g_mem g5) (g_cbuf g5) (fst t) (g_last g5) ;
          l <-o o ; find_action f (set_last o g5) (snd l) bp (fst l)
      else if (S (g_nchars g2) <? g_cbuf g2)%nat then None     (* end of buffer missed *)
      else if (g_cbuf g2 - g_text g2 =? 1)%nat then Some (SEof (set_cbuf (g_text g2) g2))
      else
        let g3 := set_cbuf (g_nchars g2) g2 in
        p <-o previous_state g3 ;
        find_action f (set_last (snd p) g3) (g_cbuf g3) (g_text g3) (fst p)
    else if (1 <=? act) && (act <=? 189) then Some (SRule act g1)
    else None                                                     (* no action found *)
  end.
(** One round of the scanner's outer loop up to the action switch, flex_lexer.cpp:3195-3242: the character under the terminating NUL is restored first. *)
Definition scan_once (g : scanner) : option outcome :=
  m <-o wr (g_mem g) (g_cbuf g) (g_hold g) ;
  o <-o match_loop (S (List.length m)) m (g_cbuf g) (g_start g) (g_last g) ;
  l <-o o ;
  find_action 4 (set_last o (set_mem m g)) (snd l) (g_cbuf g) (fst l).

(** yytext as a C string: the bytes up to the terminating NUL. *)
Fixpoint text_upto (mem : bytes) : option bytes :=
  match mem with [] => None | c :: m => if byte_eqb c NUL then Some [] else t <-o text_upto m ; Some (c :: t) end.
Definition yytext (g : scanner) : option bytes := text_upto (skipn (g_text g) (g_mem g)).

(** A call of hsql_lex, flex_lexer.cpp:3151-4349: the token's code and value, the scanner, strbuf and location afterwards.  The actions (run_rule) see yytext only as a C
    string (YY_USER_ACTION, strdup, strtoll, atof, strlen).  Both kinds of end of file return 0. *)
Fixpoint yylex (fuel : nat) (g : scanner) (buf : bytes) (pos : lexpos) : option (Z * tokval * scanner * bytes * lexpos) :=
  match fuel with
  | O => None
  | S f =>
    o <-o scan_once g ;
    match o with
    | SEof g' => Some (0, TVNone, g', buf, pos)
    | SRule r g' =>
      t <-o yytext g' ;
      match run_rule r t (mkLex (g_start g') buf pos) with
      | Skip st => yylex f (set_start (lx_start st) g') (lx_buf st) (lx_pos st)
      | Ret c v st => Some (c, v, set_start (lx_start st) g', lx_buf st, lx_pos st)
      end
    end
  end.

(** hsql__scan_string, hsql__scan_bytes, hsql__scan_buffer, hsql__switch_to_buffer, hsql__load_buffer_state (flex_lexer.cpp:4953-4957, 4966-4991, 4916-4943, 4661-4690,
    4692-4699) on a new scanner, and the initialisation at the first call of hsql_lex (3162-3187, which loads the buffer state again): the array of strlen + 2 bytes with two
    end-of-buffer characters.  The length is converted to int: a text too long for that is [None]. *)
Definition scan_string (sql : bytes) : option scanner :=
  let text := c_string sql in
  if Z.of_nat (List.length text) + 2 <=? INT_MAX then
    let mem := text ++ [NUL; NUL] in
    h <-o rd mem 0 ;
    Some (mkScan mem (List.length text) true (List.length text) 0 h 0 1 None)
  else None.

(** The calls of hsql_lex by yyparse (bison_parser.cpp:3091), up to the first code that is not positive; tokens as in LexModel.v. *)
Fixpoint scan_tokens (fuel : nat) (g : scanner) (buf : bytes) (pos : lexpos) : option (list token) :=
  match fuel with
  | O => None
  | S f =>
    o <-o yylex (S (List.length (g_mem g))) g buf pos ;
    let '(c, v, g', buf', pos') := o in
    let t := mkTok c v pos' (slen pos' - slen pos) in
    if c <=? 0 then Some [t] else ts <-o scan_tokens f g' buf' pos' ; Some (t :: ts)
  end.
Definition scan_all (buf0 sql : bytes) : option (list token) :=
  g <-o scan_string sql ; scan_tokens (S (List.length (c_string sql))) g buf0 pos0.
