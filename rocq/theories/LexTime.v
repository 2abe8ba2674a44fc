(** The scanner with a clock: the functions of LexModel.v once more, each returning besides its result the number of
    elementary rounds it made.  One tick for every round of the transition loop (flex_lexer.cpp:3215-3221 and 4512-4518), of
    the match loop (3206-3224), of the re-scan loop of yy_get_previous_state (4506-4521), of the position loop of
    YY_USER_ACTION (bison_parser.y:52-59) and of the scanner's outer loop (3193-3225).  That the results are those of
    LexModel.v is a theorem (PropTime.v).  Not counted: the work inside the rule actions other than the position loop (copying
    the text of the token: at most its length). *)
From Verif Require Import Base FlexTables LexModel.
Open Scope Z_scope.

(** flex_lexer.cpp:3215-3221: the transition loop. *)
Fixpoint yy_trans_t (fuel : nat) (s c : Z) : option Z * nat :=
  match fuel with
  | O => (None, O)
  | S f =>
    match get yy_base s with
    | None => (None, 1%nat)
    | Some b =>
      match get yy_chk (b + c) with
      | None => (None, 1%nat)
      | Some k =>
        if k =? s then (get yy_nxt (b + c), 1%nat)
        else match get yy_def s with
             | None => (None, 1%nat)
             | Some d =>
               if d >=? 1368 then
                 match get yy_meta c with
                 | None => (None, 1%nat)
                 | Some m => let (o, n) := yy_trans_t f d m in (o, S n)
                 end
               else let (o, n) := yy_trans_t f d c in (o, S n)
             end
      end
    end
  end.
Definition yy_next_t (s c : Z) : option Z * nat := yy_trans_t 20 s c.

(** flex_lexer.cpp:3206-3224: the match loop. *)
Fixpoint yy_match_t (buf : bytes) (pos : nat) (s : Z) (last : option (Z * nat)) : option (option (Z * nat)) * nat :=
  match buf with
  | [] => (None, O)
  | ch :: buf' =>
    match get yy_ec (bz ch), get yy_accept s with
    | Some c, Some a =>
      let last' := if a =? 0 then last else Some (s, pos) in
      match yy_next_t s c with
      | (None, n) => (None, S n)
      | (Some s', n) =>
        if s' =? YY_JAM then (Some last', S n)
        else let (o, k) := yy_match_t buf' (S pos) s' last' in (o, (S n + k)%nat)
      end
    | _, _ => (None, 1%nat)
    end
  end.

(** flex_lexer.cpp:4500-4525: yy_get_previous_state. *)
Fixpoint yy_previous_t (text : bytes) (pos : nat) (s : Z) (last : option (Z * nat)) : option (Z * option (Z * nat)) * nat :=
  match text with
  | [] => (Some (s, last), O)
  | ch :: text' =>
    match get yy_ec (bz ch), get yy_accept s with
    | Some c, Some a =>
      let last' := if a =? 0 then last else Some (s, pos) in
      match yy_next_t s c with
      | (None, n) => (None, S n)
      | (Some s', n) => let (o, k) := yy_previous_t text' (S pos) s' last' in (o, (S n + k)%nat)
      end
    | _, _ => (None, 1%nat)
    end
  end.

(** flex_lexer.cpp:3195-3231 and 4228-4345: one match; the end-of-buffer character makes the scanner run over the unread
    text a second time (yy_get_previous_state, called at line 4333). *)
Definition lex_match_t (start : Z) (rest : bytes) : option lexact * nat :=
  let (o, n) := yy_match_t (rest ++ [NUL; NUL]) 0 start None in
  match o with
  | Some (Some sl) =>
    match get yy_accept (fst sl) with
    | None => (None, n)
    | Some a =>
      if a =? 0 then (None, n)
      else if a =? YY_END_OF_BUFFER then
        if negb (Nat.eqb (snd sl) (S (Datatypes.length rest))) then (None, n)
        else if Nat.eqb (snd sl) 1 then (Some AEof, n)
        else
          let (p, k) := yy_previous_t rest 0 start None in
          (match p with
           | None => None
           | Some pr =>
             a1 <-o get yy_accept (fst pr) ;
             if a1 =? YY_END_OF_BUFFER then None
             else if a1 =? 0 then
               l2 <-o snd pr ;
               a2 <-o get yy_accept (fst l2) ;
               if (a2 =? 0) || (a2 =? YY_END_OF_BUFFER) then None else Some (ARule a2 (snd l2))
             else Some (ARule a1 (Datatypes.length rest))
           end, (n + k)%nat)
      else (Some (ARule a (snd sl)), n)
    end
  | _ => (None, n)
  end.

(** flex_lexer.cpp:3193-3225 with the action of the rule; YY_USER_ACTION walks over the matched text. *)
Definition lex_step_t (st : lexst) (rest : bytes) : stepres * nat :=
  match lex_match_t (lx_start st) rest with
  | (None, n) => (StepStuck, S n)
  | (Some AEof, n) => (StepTok 0 TVNone st rest, S n)
  | (Some (ARule r m), n) =>
    (match run_rule r (firstn m rest) st with
     | Skip st' => StepSkip st' (skipn m rest)
     | Ret c v st' => StepTok c v st' (skipn m rest)
     end, (S n + Datatypes.length (firstn m rest))%nat)
  end.

(** The calls of yylex up to the end of the input (bison_parser.cpp:3093-3104); cf. [lex_tokens]. *)
Fixpoint lex_tokens_t (fuel : nat) (st : lexst) (len0 : Z) (rest : bytes) : option (list token) * nat :=
  match fuel with
  | O => (None, O)
  | S f =>
    match lex_step_t st rest with
    | (StepStuck, n) => (None, n)
    | (StepSkip st' rest', n) => let (o, k) := lex_tokens_t f st' len0 rest' in (o, (n + k)%nat)
    | (StepTok c v st' rest', n) =>
      let t := mkTok c v (lx_pos st') (slen (lx_pos st') - len0) in
      if c <=? 0 then (Some [t], n)
      else let (o, k) := lex_tokens_t f st' (slen (lx_pos st')) rest' in (ts <-o o ; Some (t :: ts), (n + k)%nat)
    end
  end.
(** hsql__scan_string (flex_lexer.cpp:4953-4957) first measures the text (strlen: one tick per byte) and copies it
    (hsql__scan_bytes, 4967-4990: one tick per byte). *)
Definition lex_all_t (buf0 : bytes) (sql : bytes) : option (list token) * nat :=
  let rest := c_string sql in
  let (o, k) := lex_tokens_t (S (Datatypes.length rest)) (lex_init buf0) 0 rest in
  (o, (2 * Datatypes.length rest + k)%nat).
