(** Model of the composition of the syntax error message at the level of the C code: yysyntax_error, yytnamerr, yystpcpy and the call at
    yyerrlab, /repo/src/parser/bison_parser.cpp:1702-1925, 5674-5712.  Every read and write is checked: [None] is a read or write outside a table,
    a string or the buffer, or of an uninitialised pointer.  [syntax_message] of ParseModel.v gives the text only.
    Not modelled: malloc returning null at 5694 (C69 shows that this line is never reached). *)
From Verif Require Import Base BisonTables TokenCodes LexModel ParseModel.
Local Open Scope Z_scope.

(** A char array; its bytes may be anything before they are written. *)
Definition buffer := bytes.
Definition write_at (b : buffer) (i : nat) (c : ascii) : option buffer :=
  if (i <? List.length b)%nat then Some (firstn i b ++ c :: skipn (S i) b)%list else None.
(** What a reader of the char array gets: the bytes before the first NUL; [None] if there is none. *)
Fixpoint read_string (b : buffer) : option bytes :=
  match b with [] => None | c :: b' => if byte_eqb c NUL then Some [] else s <-o read_string b' ; Some (c :: s) end.

(** YYSIZE_T is size_t of 64 bits; YYSTACK_ALLOC_MAXIMUM is YYSIZE_MAXIMUM (bison_parser.cpp:494-507, 614-618). *)
Definition size_max : Z := 2 ^ 64 - 1.
Definition size_add (a b : Z) : Z := (a + b) mod 2 ^ 64.

(** yystpcpy, lines 1724-1737: [s] ends in NUL.  The address of the NUL written. *)
Fixpoint yystpcpy (b : buffer) (d : nat) (s : bytes) : option (nat * buffer) :=
  match s with
  | [] => b' <-o write_at b d NUL ; Some (d, b')
  | c :: s' => b' <-o write_at b d c ; yystpcpy b' (S d) s'
  end.

(** Lines 1753-1779: [s] is what follows yyp, [n] is yyn, [res] is yyres (an offset in the buffer, or null). *)
Inductive unquoted := Stripped (n : nat) (b : buffer) | Kept (b : buffer).
Definition put_res (res : option nat) (n : nat) (c : ascii) (b : buffer) : option buffer :=
  match res with None => Some b | Some r => write_at b (r + n) c end.
Fixpoint unquote (res : option nat) (n : nat) (b : buffer) (s : bytes) : option unquoted :=
  match s with
  | [] => None (* the NUL is copied and the loop goes on behind the string *)
  | c :: s' =>
    if byte_eqb c "'"%char || byte_eqb c ","%char then Some (Kept b)
    else if byte_eqb c "\"%char then
      match s' with
      | [] => Some (Kept b)
      | c' :: s'' => if byte_eqb c' "\"%char then b' <-o put_res res n c' b ; unquote res (S n) b' s'' else Some (Kept b)
      end
    else if byte_eqb c """"%char then b' <-o put_res res n NUL b ; Some (Stripped n b')
    else b' <-o put_res res n c b ; unquote res (S n) b' s'
  end.
(** yytnamerr, lines 1749-1786. *)
Definition yytnamerr (res : option nat) (b : buffer) (s : bytes) : option (nat * buffer) :=
  let plain (b : buffer) :=
    match res with
    | None => Some (List.length s, b)
    | Some r => p <-o yystpcpy b r s ; let (d, b') := p in Some ((d - r)%nat, b')
    end in
  match s with
  | [] => plain b
  | c :: s' =>
    if byte_eqb c """"%char then
      u <-o unquote res 0 b s' ;
      match u with Stripped n b' => Some (n, b') | Kept b' => plain b' end
    else plain b
  end.
(** yytname[i]. *)
Definition name_at (i : Z) : option bytes := if i <? 0 then None else nth_error yytname (Z.to_nat i).
Definition name_size (i : Z) : option Z := s <-o name_at i ; p <-o yytnamerr None [] s ; Some (Z.of_nat (fst p)).

(** yyarg, lines 1807: five pointers; [args] are those written so far, yycount of them. *)
Definition YYERROR_VERBOSE_ARGS_MAXIMUM : nat := 5.
Definition push_arg (args : list bytes) (s : bytes) : option (list bytes) :=
  if (List.length args <? YYERROR_VERBOSE_ARGS_MAXIMUM)%nat then Some (args ++ [s])%list else None.
(** The loop of lines 1847-1869 from [x] on, [n] steps before yyxend; [p] is yyn, [size0] and [size] are yysize0 and yysize.
    [Some None]: return 2. *)
Fixpoint collect (n : nat) (x p size0 size : Z) (args : list bytes) : option (option (list bytes * Z)) :=
  match n with
  | O => Some (Some (args, size))
  | S n' =>
    k <-o get yycheck (x + p) ;
    hit <-o (if negb (k =? x) then Some false else if x =? 1 then Some false else y <-o get yytable (x + p) ; Some (negb (y =? YYTABLE_NINF))) ;
    if negb hit then collect n' (x + 1) p size0 size args
    else if (List.length args =? YYERROR_VERBOSE_ARGS_MAXIMUM)%nat then Some (Some (firstn 1 args, size0))
    else
      s <-o name_at x ; args' <-o push_arg args s ; l <-o name_size x ;
      let size1 := size_add size l in
      if negb ((size <=? size1) && (size1 <=? size_max)) then Some None
      else collect n' (x + 1) p size0 size1 args'
  end.
(** Lines 1872-1885. *)
Definition format_of (count : nat) : option bytes :=
  match count with
  | 0 => Some (la "syntax error")
  | 1 => Some (la "syntax error, unexpected %s")
  | 2 => Some (la "syntax error, unexpected %s, expecting %s")
  | 3 => Some (la "syntax error, unexpected %s, expecting %s or %s")
  | 4 => Some (la "syntax error, unexpected %s, expecting %s or %s or %s")
  | 5 => Some (la "syntax error, unexpected %s, expecting %s or %s or %s or %s")
  | _ => None
  end%nat.
(** Lines 1909-1922: [p] is yyp, [args] is yyarg + yyi. *)
Fixpoint fill (f : bytes) (args : list bytes) (p : nat) (b : buffer) : option buffer :=
  match f with
  | [] => write_at b p NUL
  | c :: f' =>
    b1 <-o write_at b p c ;
    match f', args with
    | c' :: f'', a :: args' =>
      if byte_eqb c "%"%char && byte_eqb c' "s"%char then q <-o yytnamerr (Some p) b1 a ; let (n, b2) := q in fill f'' args' (p + n)%nat b2
      else fill f' args (S p) b1
    | _, _ => fill f' args (S p) b1
    end
  end.

Inductive composed :=
| Written (b : buffer)       (* return 0 *)
| TooSmall (alloc : Z)       (* return 1 *)
| TooLarge.                  (* return 2 *)
(** yysyntax_error, lines 1798-1924, in the state [s] with the lookahead [tok] (None: YYEMPTY, which is -2); [b] is *yymsg of size *yymsg_alloc = [alloc]. *)
Definition yysyntax_error (alloc : Z) (b : buffer) (s : Z) (tok : option Z) : option composed :=
  let t := match tok with Some t => t | None => -2 end in
  size0 <-o name_size t ;
  r <-o match tok with
        | None => Some (Some ([], size0))
        | Some t =>
          p <-o get yypact s ;
          u <-o name_at t ; args <-o push_arg [] u ;
          if p =? YYPACT_NINF then Some (Some (args, size0))
          else
            let xbegin := if p <? 0 then - p else 0 in
            let checklim := YYLAST - p + 1 in
            let xend := if checklim <? YYNTOKENS then checklim else YYNTOKENS in
            collect (Z.to_nat (xend - xbegin)) xbegin p size0 size0 args
        end ;
  match r with
  | None => Some TooLarge
  | Some (args, size) =>
    f <-o format_of (List.length args) ;
    let size1 := size_add size (Z.of_nat (List.length f)) in
    if negb ((size <=? size1) && (size1 <=? size_max)) then Some TooLarge
    else if alloc <? size1 then
      let alloc' := size_add size1 size1 in
      Some (TooSmall (if negb ((size1 <=? alloc') && (alloc' <=? size_max)) then size_max else alloc'))
    else b' <-o fill f args 0%nat b ; Some (Written b')
  end.
(** yymsgbuf, line 2951. *)
Definition yymsgbuf_size : nat := 128.
(** yyerrlab, lines 5684-5708: the text passed to yyerror, and the size of the block allocated for it (None: none).
    [b] is yymsgbuf, [fresh n] what malloc(n) returns. *)
Definition error_text (b : buffer) (fresh : Z -> buffer) (s : Z) (tok : option Z) : option (bytes * option Z) :=
  r <-o yysyntax_error (Z.of_nat yymsgbuf_size) b s tok ;
  match r with
  | Written b' => m <-o read_string b' ; Some (m, None)
  | TooSmall n =>
    r2 <-o yysyntax_error n (fresh n) s tok ;
    match r2 with
    | Written b' => m <-o read_string b' ; Some (m, Some n)
    | TooSmall _ => None (* yymsgp points to a buffer that was not written *)
    | TooLarge => None
    end
  | TooLarge => Some (la "syntax error", None)
  end.
