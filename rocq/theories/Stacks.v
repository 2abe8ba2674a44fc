(** Model of yyparse with its stacks as the three arrays of the C code: yyssa, yyvsa, yylsa, each of YYINITDEPTH elements, and one index
    for the pointers yyssp, yyvsp, yylsp (they move together).  /repo/src/parser/bison_parser.cpp:2918-2956, 2985-3069, 3103-3190, 5636-5664, 5736-5790, 5835-5853.
    Every access is checked against the array; reading a cell that was not written is an error unless the code discards the value.
    Shared with ParseModel.v: the decisions (decide, goto_of, error_shift), the actions, yydestruct and read_token, which do not touch the stacks. *)
From Verif Require Import Base BisonTables TokenCodes DestructTable LexModel Ast Heap Actions ParseModel.
Open Scope Z_scope.

(** A stack: YYINITDEPTH cells, [None] for one not written yet. *)
Definition cells (A : Type) := list (option A).
Definition in_array {A} (a : cells A) (i : nat) : bool := (i <? Datatypes.length a)%nat.
Definition load {A} (a : cells A) (i : nat) : option A := match nth_error a i with Some (Some x) => Some x | _ => None end.
Definition store {A} (a : cells A) (i : nat) (x : A) : option (cells A) := if in_array a i then Some (firstn i a ++ Some x :: skipn (S i) a)%list else None.

Record cstate := mkC { c_ss : cells Z; c_vs : cells val; c_ls : cells loc; c_sp : nat; c_look : option (Z * val); c_toks : list token; c_env : env }.
Inductive cout := CCont (c : cstate) | CStop (r : Z) (e : env) | CUndef (u : ub).
Definition orelse {A} (o : option A) (k : A -> cout) : cout := match o with Some x => k x | None => CUndef UTable end.
Definition lift {A} (o : option A) : M A := match o with Some x => ret x | None => fail UTable end.

(** yydestruct of the cell [i], 5785 and 5851: yystos[*yyssp], yyvsp. *)
Definition destruct_cell (ss : cells Z) (vs : cells val) (i : nat) : M unit :=
  s <- lift (load ss i) ;;
  match get yystos s with Some y => v <- lift (load vs i) ;; yydestruct (Z.to_N y) v | None => fail UTable end.
(** "Cleanup: popping", 5849-5854: while yyssp != yyss. *)
Fixpoint cpop_all (ss : cells Z) (vs : cells val) (sp : nat) : M unit :=
  match sp with
  | O => ret tt
  | S sp' => destruct_cell ss vs sp ;; cpop_all ss vs sp'
  end.
(** The loop of yyerrlab1, 5765-5790; *yylsp is read into yyerror_range (5783). *)
Fixpoint cpop_error (ss : cells Z) (vs : cells val) (ls : cells loc) (sp : nat) : M unit :=
  s <- lift (load ss sp) ;;
  match error_shift s with
  | Some false =>
    match sp with
    | O => ret tt
    | S sp' => _ <- lift (load ls sp) ;; destruct_cell ss vs sp ;; cpop_error ss vs ls sp'
    end
  | _ => fail UTable
  end.
Definition cfinish (r : Z) (m : M unit) (e : env) : cout :=
  match m e with ROk _ e' => CStop r e' | RErr _ => CUndef UTable | RUB u => CUndef u end.

(** The values $1..$n of a right-hand side whose last symbol is in cell [sp]: yyvsp[k-n]. *)
Fixpoint load_args (vs : cells val) (n : nat) (sp : nat) (acc : list val) : option (list val) :=
  match n with
  | O => Some acc
  | S n' => match load vs sp with Some v => load_args vs n' (sp - 1)%nat (v :: acc) | None => None end
  end.
(** YYLLOC_DEFAULT, 1490-1506, with Rhs = yylsp - n. *)
Definition cdefault_loc (ls : cells loc) (n sp : nat) : option loc :=
  match n with
  | O => l <-o load ls sp ; Some (mkLoc (l_ll l) (l_lc l) (l_ll l) (l_lc l))
  | _ => a <-o load ls (sp - n + 1)%nat ; z <-o load ls sp ; Some (mkLoc (l_fl a) (l_fc a) (l_ll z) (l_lc z))
  end.
(** *++yyvsp = v; *++yylsp = l; then yyssp++; *yyssp = s (3121-3125, 5651-5652, 3001-3004). *)
Definition cpush (c : cstate) (sp : nat) (s : Z) (v : val) (l : loc) (k : option (Z * val)) (e : env) : cout :=
  orelse (store (c_vs c) (S sp) v) (fun vs => orelse (store (c_ls c) (S sp) l) (fun ls => orelse (store (c_ss c) (S sp) s) (fun ss =>
    CCont (mkC ss vs ls (S sp) k (c_toks c) e)))).

(** One round, as [step] in ParseModel.v. *)
Definition cstep (c : cstate) : cout :=
  let sp := c_sp c in let e := c_env c in
  orelse (load (c_ss c) sp) (fun s =>
    if (YYINITDEPTH - 1 <=? sp)%nat then
      cfinish 2 (yyerror_at (fl (e_lpos e)) (fc (e_lpos e)) err_exhausted ;; drop_look (c_look c) ;; cpop_all (c_ss c) (c_vs c) sp) e
    else if s =? YYFINAL then cfinish 0 (drop_look (c_look c) ;; cpop_all (c_ss c) (c_vs c) sp) e
    else
      let tok := match c_look c with Some (x, _) => yytranslate_of x | None => None end in
      match decide s tok with
      | None => CUndef UTable
      | Some DRead =>
        match c_toks c with
        | [] => CUndef UTable
        | t :: ts =>
          match read_token t e with
          | ROk l e' => CCont (mkC (c_ss c) (c_vs c) (c_ls c) sp (Some l) ts e')
          | RErr _ => CUndef UTable
          | RUB u => CUndef u
          end
        end
      | Some (DShift s') =>
        match c_look c with
        | Some (_, v) => cpush c sp s' v (loc_of (e_lpos e)) None e
        | None => CUndef UTable
        end
      | Some (DReduce r) =>
        match get yyr2 r, get yyr1 r with
        | Some n, Some nt =>
          let n := Z.to_nat n in
          if (n <=? sp)%nat && in_array (c_vs c) (S sp - n)%nat then               (* 3165: yyval = yyvsp[1-yylen] *)
            orelse (cdefault_loc (c_ls c) n sp) (fun l =>
            orelse (load_args (c_vs c) n sp []) (fun args =>
            match act (Z.to_N r) args (set_loc l e) with
            | ROk v e' =>
              orelse (load (c_ss c) (sp - n)%nat) (fun b =>
              match goto_of b nt with
              | Some g => cpush c (sp - n)%nat g v l (c_look c) e'
              | None => CUndef UTable
              end)
            | RErr e' =>
              if in_array (c_ls c) (S sp - n)%nat then                              (* 5746: yyerror_range[1] = yylsp[1-yylen] *)
                cfinish 1 (cpop_error (c_ss c) (c_vs c) (c_ls c) (sp - n)%nat ;; drop_look (c_look c)) e'
              else CUndef UTable
            | RUB u => CUndef u
            end))
          else CUndef UTable
        | _, _ => CUndef UTable
        end
      | Some DError =>
        cfinish 1 (yyerror_at (fl (e_lpos e)) (fc (e_lpos e)) (syntax_message s tok) ;; cpop_error (c_ss c) (c_vs c) (c_ls c) sp ;; drop_look (c_look c)) e
      end).
Fixpoint crun (fuel : nat) (c : cstate) : parse_out :=
  match fuel with
  | O => PFuel
  | S f => match cstep c with CCont c' => crun f c' | CStop r e => PRet r e | CUndef u => PUB u end
  end.
(** Entry, 2960-3004: yylsp[0] = yylloc, *yyssp = 0; yyvsp[0] is never written. *)
Definition cinit (ts : list token) (e : env) : option cstate :=
  let none {A} : cells A := repeat None YYINITDEPTH in
  ls <-o store none 0%nat (mkLoc 0 0 0 0) ; ss <-o store none 0%nat 0 ;
  Some (mkC ss none ls 0 None ts (parse_env e)).
Definition cyyparse (ts : list token) (e : env) : parse_out :=
  match cinit ts e with Some c => crun (parse_fuel (Datatypes.length ts)) c | None => PUB UTable end.
