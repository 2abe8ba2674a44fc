(** The LALR(1) driver: model of hsql_parse (yyparse), /repo/src/parser/bison_parser.cpp:2885-5860, working on the tables
    of BisonTables.v. *)
From Verif Require Import Base BisonTables TokenCodes DestructTable LexModel Ast Heap Actions.
Open Scope Z_scope.

(** YYINITDEPTH, bison_parser.cpp:1687-1689.  HSQL_LTYPE is a class with a std::vector, HSQL_LTYPE_IS_TRIVIAL is not defined,
    hence YYSTACK_RELOCATE is not defined (bison_parser.cpp:659-686) and the stacks never grow: 3006-3038. *)
Definition YYINITDEPTH : nat := 200.

(** YYTRANSLATE, bison_parser.cpp:721-725. *)
Definition yytranslate_of (c : Z) : option Z :=
  if (0 <=? c) && (c <=? YYMAXUTOK) then get yytranslate c else Some 2.

(** What yybackup/yydefault decide in state [s]: bison_parser.cpp:3077-3148. *)
Inductive decision :=
| DRead             (* a lookahead token is needed *)
| DShift (s : Z)
| DReduce (r : Z)
| DError.
(** yydefault, bison_parser.cpp:3143-3147. *)
Definition default_of (s : Z) : option decision :=
  d <-o get yydefact s ; Some (if d =? 0 then DError else DReduce d).
(** [tok]: yytoken, the translated lookahead, if there is one. *)
Definition decide (s : Z) (tok : option Z) : option decision :=
  p <-o get yypact s ;
  if p =? YYPACT_NINF then default_of s
  else match tok with
  | None => Some DRead
  | Some t =>
    let n := p + t in
    if (n <? 0) || (YYLAST <? n) then default_of s
    else
      k <-o get yycheck n ;
      if negb (k =? t) then default_of s
      else
        y <-o get yytable n ;
        if y <=? 0 then (if y =? YYTABLE_NINF then Some DError else Some (DReduce (- y)))
        else Some (DShift y)
  end.
(** The state after a reduction to nonterminal [nt] (symbol number) in state [s]: bison_parser.cpp:5656-5664. *)
Definition goto_of (s nt : Z) : option Z :=
  g <-o get yypgoto (nt - YYNTOKENS) ;
  let n := g + s in
  if (0 <=? n) && (n <=? YYLAST) then
    k <-o get yycheck n ;
    if k =? s then get yytable n else get yydefgoto (nt - YYNTOKENS)
  else get yydefgoto (nt - YYNTOKENS).
(** Can state [s] shift the error token?  bison_parser.cpp:5765-5782. *)
Definition error_shift (s : Z) : option bool :=
  p <-o get yypact s ;
  if p =? YYPACT_NINF then Some false
  else
    let n := p + 1 in
    if (0 <=? n) && (n <=? YYLAST) then
      k <-o get yycheck n ;
      if k =? 1 then (y <-o get yytable n ; Some (0 <? y)) else Some false
    else Some false.

(** yysyntax_error, bison_parser.cpp:1798-1922: the tokens listed after "expecting" in state [s] (positions of yytname). *)
Fixpoint expected_from (n : nat) (x p : Z) : list Z :=
  match n with
  | O => []
  | S n' =>
    let here := match get yycheck (x + p), get yytable (x + p) with
                | Some k, Some y => (k =? x) && negb (x =? 1) && negb (y =? YYTABLE_NINF)
                | _, _ => false
                end in
    if here then x :: expected_from n' (x + 1) p else expected_from n' (x + 1) p
  end.
Definition expected_tokens (s : Z) : list Z :=
  match get yypact s with
  | None => []
  | Some p =>
    if p =? YYPACT_NINF then []
    else
      let b := if p <? 0 then - p else 0 in
      let lim := YYLAST - p + 1 in
      let e := if lim <? YYNTOKENS then lim else YYNTOKENS in
      expected_from (Z.to_nat (e - b)) b p
  end.
(** yytnamerr copies the name unchanged: no entry of yytname starts with a double quote. *)
Definition tok_name (t : Z) : bytes := nth (Z.to_nat t) yytname [].
Fixpoint join_or (l : list bytes) : bytes :=
  match l with [] => [] | [x] => x | x :: l' => x ++ la " or " ++ join_or l' end.
(** The message: at most four expected tokens are listed, none if there are more (lines 1854-1859).  Running out of
    memory while building it is not modelled. *)
Definition syntax_message (s : Z) (tok : option Z) : bytes :=
  match tok with
  | None => la "syntax error"
  | Some t =>
    let ex := expected_tokens s in
    la "syntax error, unexpected " ++ tok_name t ++
    match ex with
    | [] => []
    | _ => if (4 <? Z.of_nat (Datatypes.length ex)) then [] else la ", expecting " ++ join_or (map tok_name ex)
    end
  end.
Definition err_exhausted := la "memory exhausted".

(** yydestruct, bison_parser.cpp:1929-2875, by the %destructor directive that applies to symbol [sym]
    (bison_parser.y:181-207). *)
Definition yydestruct (sym : N) (v : val) : M unit :=
  match find (fun p => N.eqb (fst p) sym) destructors with
  | None => ret tt
  | Some (_, d) =>
    if N.eqb d 181 then ret tt
    else if N.eqb d 182 then
      n <- getf F_name v ;; free_ n ;; s <- getf F_schema v ;; free_ s
    else if N.eqb d 186 then free_vec v
    else if N.eqb d 194 then free_ v
    else if N.eqb d 195 then
      match v with
      | VNull => ret tt
      | _ => l <- velems v ;; del_all l ;; del_block v
      end
    else if N.eqb d 203 then
      s <- getf F_second v ;; free_ s ;; del_block v
    else del v                                            (* 207 *)
  end.

(** One entry of the three stacks yyss, yyvs, yyls. *)
Record entry := mkEnt { s_state : Z; s_val : val; s_loc : loc }.
(** The parser's local variables.  [p_stk]: top first; its last element is the bottom entry (state 0).
    [p_look]: yychar and yylval, [None] = YYEMPTY.  [p_toks]: what the following calls of yylex will return. *)
Record pstate := mkP { p_stk : list entry; p_look : option (Z * val); p_toks : list token; p_env : env }.
Inductive out :=
| Cont (p : pstate)
| Stop (r : Z) (e : env)        (* return value of yyparse *)
| Undef (u : ub).

(** A call of yylex (3091) followed by "if (yychar <= YYEOF) yychar = YYEOF" (3094-3096): the scanner writes the location,
    counts characters and strdups the value of identifiers and strings (flex_lexer.l:269-284). *)
Definition token_value (v : tokval) : M val :=
  match v with
  | TVNone => ret VUninit      (* yylval keeps its previous contents; not used for tokens without a type *)
  | TVStr s => snew s
  | TVInt z => ret (VInt z)
  | TVFlt t => ret (VFlt t)
  end.
Definition read_token (t : token) : M (Z * val) :=
  (fun e => ROk tt (set_lpos (mkPos (fl (t_pos t)) (fc (t_pos t)) (ll (t_pos t)) (lc (t_pos t)) (total (t_pos t))
                                     (slen (e_lpos e) + t_len t)) e)) ;;
  v <- token_value (t_val t) ;;
  ret ((if t_code t <=? 0 then 0 else t_code t), v).
Definition loc_of (p : lexpos) : loc := mkLoc (fl p) (fc p) (ll p) (lc p).

(** YYLLOC_DEFAULT, bison_parser.cpp:1490-1506.  [popped]: the entries of the right-hand side, first symbol first;
    [below]: the entry below them. *)
Definition default_loc (popped : list entry) (below : entry) : loc :=
  match popped with
  | [] => let l := s_loc below in mkLoc (l_ll l) (l_lc l) (l_ll l) (l_lc l)
  | x :: _ =>
    let a := s_loc x in let z := s_loc (last popped x) in
    mkLoc (l_fl a) (l_fc a) (l_ll z) (l_lc z)
  end.

Definition destruct_entry (x : entry) : M unit :=
  match get yystos (s_state x) with Some y => yydestruct (Z.to_N y) (s_val x) | None => fail UTable end.
(** "Cleanup: popping", 5849-5854: all entries except the bottom one. *)
Fixpoint pop_all (stk : list entry) : M unit :=
  match stk with
  | [] | [_] => ret tt
  | x :: stk' => destruct_entry x ;; pop_all stk'
  end.
(** The loop of yyerrlab1, 5765-5790; shifting the error token never happens for this grammar (theorem), so that case is
    the impossible outcome UTable. *)
Fixpoint pop_error (stk : list entry) : M unit :=
  match stk with
  | [] => fail UTable
  | x :: stk' =>
    match error_shift (s_state x) with
    | Some false => match stk' with [] => ret tt | _ => destruct_entry x ;; pop_error stk' end
    | _ => fail UTable
    end
  end.
(** "Cleanup: discarding lookahead", 5838-5845. *)
Definition drop_look (l : option (Z * val)) : M unit :=
  match l with
  | None => ret tt
  | Some (c, v) => match yytranslate_of c with Some t => yydestruct (Z.to_N t) v | None => fail UTable end
  end.
Definition finish (r : Z) (m : M unit) (e : env) : out :=
  match m e with ROk _ e' => Stop r e' | RErr _ => Undef UTable | RUB u => Undef u end.

(** One round: from yysetstate (3004) to the next jump to yynewstate, or to the end. *)
Definition step (p : pstate) : out :=
  let stk := p_stk p in let e := p_env p in
  match stk with
  | [] => Undef UTable
  | top :: _ =>
    let s := s_state top in
    if (YYINITDEPTH <=? Datatypes.length stk)%nat then              (* 3006: yyexhaustedlab, 5825-5830 *)
      finish 2 (yyerror_at (fl (e_lpos e)) (fc (e_lpos e)) err_exhausted ;; drop_look (p_look p) ;; pop_all stk) e
    else if s =? YYFINAL then finish 0 (drop_look (p_look p) ;; pop_all stk) e      (* 3067: YYACCEPT *)
    else
      let tok := match p_look p with Some (c, _) => yytranslate_of c | None => None end in
      match decide s tok with
      | None => Undef UTable
      | Some DRead =>
        match p_toks p with
        | [] => Undef UTable
        | t :: ts =>
          match read_token t e with
          | ROk l e' => Cont (mkP stk (Some l) ts e')
          | RErr _ => Undef UTable
          | RUB u => Undef u
          end
        end
      | Some (DShift s') =>
        match p_look p with
        | Some (_, v) => Cont (mkP (mkEnt s' v (loc_of (e_lpos e)) :: stk) None (p_toks p) e)
        | None => Undef UTable
        end
      | Some (DReduce r) =>
        match get yyr2 r, get yyr1 r with
        | Some n, Some nt =>
          let n := Z.to_nat n in
          let popped := rev (firstn n stk) in
          match skipn n stk with
          | [] => Undef UTable
          | below :: stk' =>
            let l := default_loc popped below in
            match act (Z.to_N r) (map s_val popped) (set_loc l e) with
            | ROk v e' =>
              match goto_of (s_state below) nt with
              | Some g => Cont (mkP (mkEnt g v l :: below :: stk') (p_look p) (p_toks p) e')
              | None => Undef UTable
              end
            | RErr e' => finish 1 (pop_error (below :: stk') ;; drop_look (p_look p)) e'   (* yyerrorlab, 5736-5755 *)
            | RUB u => Undef u
            end
          end
        | _, _ => Undef UTable
        end
      | Some DError =>                                                (* yyerrlab, 5670-5730 *)
        finish 1 (yyerror_at (fl (e_lpos e)) (fc (e_lpos e)) (syntax_message s tok) ;;
                  pop_error stk ;; drop_look (p_look p)) e
      end
  end.

(** The goto loop; [fuel] bounds the number of rounds ([None] = not finished; excluded by a theorem). *)
Inductive parse_out := PRet (r : Z) (e : env) | PUB (u : ub) | PFuel.
Fixpoint run (fuel : nat) (p : pstate) : parse_out :=
  match fuel with
  | O => PFuel
  | S f => match step p with Cont p' => run f p' | Stop r e => PRet r e | Undef u => PUB u end
  end.

(** Entry of yyparse, 2960-2990: empty stacks with the initial state, no lookahead, the %initial-action.
    yyloc.param_list starts empty. *)
Definition bottom : entry := mkEnt 0 VUninit (mkLoc 0 0 0 0).
Definition parse_env (e : env) : env := set_plist [] (set_lpos pos0 e).
Definition parse_init (ts : list token) (e : env) : pstate := mkP [bottom] None ts (parse_env e).
(** Rounds needed for [n] tokens (linear; sufficiency is theorem C01 in Driver.v). *)
Definition parse_fuel (n : nat) : nat := (20 * n + 300)%nat.
Definition yyparse (ts : list token) (e : env) : parse_out := run (parse_fuel (Datatypes.length ts)) (parse_init ts e).
