(** The machine on which the grammar actions run: heap with explicit allocation, the result object, the two location
    variables of yyparse.  Every primitive has undefined behaviour as a distinct outcome. *)
From Verif Require Import Base LexModel Ast.
Local Open Scope N_scope.

(** Kinds of undefined behaviour. *)
Inductive ub :=
| UNullDeref        (* *nullptr *)
| UUseAfterFree     (* access to a block that is not live *)
| UBadFree          (* free/delete of a block that is not live (double free) *)
| UUninit           (* use of an indeterminate value *)
| UBadValue         (* value of another type: wrong union member, wrong class, missing member *)
| UTable            (* array index out of bounds / impossible table entry *)
| UScanf.           (* %d conversion result not representable in int (C11 7.21.6.2p10) *)

(** First/last line/column of a location (YYLTYPE without the counters), parser_typedef.h:14-18. *)
Record loc := mkLoc { l_fl : Z; l_fc : Z; l_ll : Z; l_lc : Z }.

(** Machine state.
    - [e_next], [e_live]: next fresh address, addresses of the live blocks (malloc/new minus free/delete);
    - [e_valid] .. [e_params]: the members of SQLParserResult (SQLParserResult.h:73-90); a parameter is recorded with the
      address of the Expr and the ival it had when it was added (addParameter sorts by ival);
    - [e_plist]: yyloc.param_list (addresses), [e_loc]: the rest of yyloc, [e_lpos]: yylloc;
      YYLLOC_DEFAULT (bison_parser.cpp:1490-1506) copies four members only, so param_list survives in yyloc. *)
Record env := mkEnv {
  e_next : N; e_live : list N;
  e_valid : bool; e_stmts : list val; e_msg : val; e_line : val; e_col : val; e_params : list (N * Z);
  e_plist : list N; e_loc : loc; e_lpos : lexpos }.

Inductive res (A : Type) :=
| ROk (a : A) (e : env)
| RErr (e : env)           (* YYERROR was executed *)
| RUB (u : ub).
Arguments ROk {A}. Arguments RErr {A}. Arguments RUB {A}.

Definition M (A : Type) := env -> res A.
Definition ret {A} (a : A) : M A := fun e => ROk a e.
Definition bind {A B} (m : M A) (k : A -> M B) : M B :=
  fun e => match m e with ROk a e' => k a e' | RErr e' => RErr e' | RUB u => RUB u end.
Definition fail {A} (u : ub) : M A := fun _ => RUB u.
Notation "x <- m ;; k" := (bind m (fun x => k)) (at level 61, m at next level, right associativity).
Notation "m ;; k" := (bind m (fun _ => k)) (at level 61, right associativity).

(** Record updates. *)
Definition set_heap (n : N) (l : list N) (e : env) : env :=
  mkEnv n l (e_valid e) (e_stmts e) (e_msg e) (e_line e) (e_col e) (e_params e) (e_plist e) (e_loc e) (e_lpos e).
Definition set_error (m l c : val) (e : env) : env :=
  mkEnv (e_next e) (e_live e) false (e_stmts e) m l c (e_params e) (e_plist e) (e_loc e) (e_lpos e).
Definition set_valid (b : bool) (e : env) : env :=
  mkEnv (e_next e) (e_live e) b (e_stmts e) (e_msg e) (e_line e) (e_col e) (e_params e) (e_plist e) (e_loc e) (e_lpos e).
Definition set_stmts (s : list val) (e : env) : env :=
  mkEnv (e_next e) (e_live e) (e_valid e) s (e_msg e) (e_line e) (e_col e) (e_params e) (e_plist e) (e_loc e) (e_lpos e).
Definition set_params (p : list (N * Z)) (e : env) : env :=
  mkEnv (e_next e) (e_live e) (e_valid e) (e_stmts e) (e_msg e) (e_line e) (e_col e) p (e_plist e) (e_loc e) (e_lpos e).
Definition set_plist (p : list N) (e : env) : env :=
  mkEnv (e_next e) (e_live e) (e_valid e) (e_stmts e) (e_msg e) (e_line e) (e_col e) (e_params e) p (e_loc e) (e_lpos e).
Definition set_loc (l : loc) (e : env) : env :=
  mkEnv (e_next e) (e_live e) (e_valid e) (e_stmts e) (e_msg e) (e_line e) (e_col e) (e_params e) (e_plist e) l (e_lpos e).
Definition set_lpos (p : lexpos) (e : env) : env :=
  mkEnv (e_next e) (e_live e) (e_valid e) (e_stmts e) (e_msg e) (e_line e) (e_col e) (e_params e) (e_plist e) (e_loc e) p.

(** The heap. *)
Fixpoint memN (a : N) (l : list N) : bool :=
  match l with [] => false | b :: l' => N.eqb a b || memN a l' end.
Fixpoint removeN (a : N) (l : list N) : list N :=
  match l with [] => [] | b :: l' => if N.eqb a b then l' else b :: removeN a l' end.

(** new / malloc / strdup: never fail (allocation failure is not modelled). *)
Definition alloc : M N := fun e => ROk (e_next e) (set_heap (e_next e + 1) (e_next e :: e_live e) e).
(** Releasing a block. *)
Definition release (a : N) : M unit := fun e =>
  if memN a (e_live e) then ROk tt (set_heap (e_next e) (removeN a (e_live e)) e) else RUB UBadFree.
(** A dereference of the block at [a]. *)
Definition check (a : N) : M unit := fun e => if memN a (e_live e) then ROk tt e else RUB UUseAfterFree.

Definition deref (v : val) : M unit :=
  match v with
  | VStr a _ | VObj a _ _ | VVec a _ => check a
  | VNull => fail UNullDeref
  | VUninit => fail UUninit
  | _ => fail UBadValue
  end.

(** Reading [v->f] (or [v.f] for a by-value struct); reading an indeterminate member is undefined. *)
Definition read_field (f : fld) (fs : list (fld * val)) : M val :=
  match lookup f fs with
  | Some VUninit => fail UUninit
  | Some x => ret x
  | None => fail UBadValue
  end.
Definition getf (f : fld) (v : val) : M val :=
  match v with
  | VObj a _ fs => check a ;; read_field f fs
  | VRec fs => read_field f fs
  | VNull => fail UNullDeref
  | VUninit => fail UUninit
  | _ => fail UBadValue
  end.
(** [v->f = x]; returns the updated object. *)
Definition put (f : fld) (x : val) (v : val) : M val :=
  match v with
  | VObj a c fs =>
    check a ;;
    match lookup f fs with Some _ => ret (VObj a c (update f x fs)) | None => fail UBadValue end
  | VNull => fail UNullDeref
  | VUninit => fail UUninit
  | _ => fail UBadValue
  end.
(** Several assignments [v->f1 = x1; v->f2 = x2; ...]. *)
Fixpoint puts (l : list (fld * val)) (v : val) : M val :=
  match l with [] => ret v | (f, x) :: l' => v' <- put f x v ;; puts l' v' end.

(** [new C(...)] with the given initial members; [new std::vector<T>()]; strdup. *)
Definition new (c : cls) (fs : list (fld * val)) : M val := a <- alloc ;; ret (VObj a c fs).
Definition vnew : M val := a <- alloc ;; ret (VVec a []).
Definition snew (s : bytes) : M val := a <- alloc ;; ret (VStr a s).

(** [v->push_back(x)]. *)
Definition vpush (x v : val) : M val :=
  match v with
  | VVec a l => check a ;; ret (VVec a (l ++ [x]))
  | VNull => fail UNullDeref
  | VUninit => fail UUninit
  | _ => fail UBadValue
  end.
(** Elements of a vector. *)
Definition velems (v : val) : M (list val) :=
  match v with
  | VVec a l => check a ;; ret l
  | VNull => fail UNullDeref
  | VUninit => fail UUninit
  | _ => fail UBadValue
  end.
(** [v->back()->f = x]; back() of an empty vector is undefined. *)
Definition vback_put (f : fld) (x v : val) : M val :=
  match v with
  | VVec a l =>
    check a ;;
    match rev l with
    | [] => fail UTable
    | y :: r => y' <- put f x y ;; ret (VVec a (rev r ++ [y']))
    end
  | VNull => fail UNullDeref
  | VUninit => fail UUninit
  | _ => fail UBadValue
  end.
(** The bytes of a C string argument (strcasecmp, sscanf, std::string). *)
Definition cstr (v : val) : M bytes :=
  match v with
  | VStr a s => check a ;; ret s
  | VNull => fail UNullDeref
  | VUninit => fail UUninit
  | _ => fail UBadValue
  end.
Definition is_null (v : val) : M bool :=
  match v with
  | VNull => ret true
  | VStr _ _ | VObj _ _ _ | VVec _ _ => ret false
  | VUninit => fail UUninit
  | _ => fail UBadValue
  end.
Definition as_int (v : val) : M Z :=
  match v with VInt z => ret z | VUninit => fail UUninit | _ => fail UBadValue end.
Definition as_enum (v : val) : M val :=
  match v with VEnum _ _ => ret v | VUninit => fail UUninit | _ => fail UBadValue end.

(** free(p): nothing for a null pointer. *)
Definition free_ (v : val) : M unit :=
  match v with
  | VNull => ret tt
  | VStr a _ => release a
  | VUninit => fail UUninit
  | _ => fail UBadValue
  end.
(** [for (x : l) free(x)] *)
Fixpoint free_all (l : list val) : M unit :=
  match l with [] => ret tt | x :: l' => free_ x ;; free_all l' end.
(** [delete vec] / [delete pair]: the block only. *)
Definition del_block (v : val) : M unit :=
  match v with
  | VNull => ret tt
  | VVec a _ | VObj a _ _ => release a
  | VUninit => fail UUninit
  | _ => fail UBadValue
  end.
(** [if (v) { for (x : *v) free(x); delete v; }] *)
Definition free_vec (v : val) : M unit :=
  match v with
  | VNull => ret tt
  | VVec a l => check a ;; free_all l ;; release a
  | VUninit => fail UUninit
  | _ => fail UBadValue
  end.

(** statements.cpp:337-347: one element of [lockings]. *)
Definition del_locking (v : val) : M unit :=
  t <- getf F_tables v ;; free_vec t ;; del_block v.

(** [delete v] for an object: run the destructor on the members, then release the block.  The members are visited in
    declaration order, which is not always the order of the statements in the destructor body; the frees are
    independent of each other, so the order is not observable. *)
Fixpoint del (v : val) : M unit :=
  match v with
  | VNull => ret tt
  | VUninit => fail UUninit
  | VObj a c fs =>
    check a ;;
    (fix members (fs : list (fld * val)) : M unit :=
       match fs with
       | [] => ret tt
       | (f, x) :: fs' =>
         match dtor_how c f with
         | HNone => ret tt
         | HFree => free_ x
         | HDel => del x
         | HVecDel =>
           match x with
           | VNull => ret tt
           | VVec b l =>
             check b ;;
             (fix elems (l : list val) : M unit :=
                match l with [] => ret tt | y :: l' => del y ;; elems l' end) l ;;
             release b
           | VUninit => fail UUninit
           | _ => fail UBadValue
           end
         | HVecFree => free_vec x
         | HVecFree1 => match x with VNull => fail UNullDeref | _ => free_vec x end
         | HVecPlain => del_block x
         | HLockings =>
           match x with
           | VNull => ret tt
           | VVec b l =>
             check b ;;
             (fix elems (l : list val) : M unit :=
                match l with [] => ret tt | y :: l' => del_locking y ;; elems l' end) l ;;
             release b
           | VUninit => fail UUninit
           | _ => fail UBadValue
           end
         | HUpdates =>
           match x with
           | VNull => ret tt
           | VVec b l =>
             check b ;;
             (fix elems (l : list val) : M unit :=
                match l with
                | [] => ret tt
                | y :: l' =>
                  match y with
                  | VObj d CUpdateClause us =>
                    check d ;;
                    (fix upd (us : list (fld * val)) : M unit :=
                       match us with
                       | [] => ret tt
                       | (F_column, z) :: us' => free_ z ;; upd us'
                       | (F_value, z) :: us' => del z ;; upd us'
                       | _ :: us' => upd us'
                       end) us ;;
                    release d
                  | VNull => fail UNullDeref
                  | _ => fail UBadValue
                  end ;;
                  elems l'
                end) l ;;
             release b
           | VUninit => fail UUninit
           | _ => fail UBadValue
           end
         end ;;
         members fs'
       end) fs ;;
    release a
  | VVec a _ => release a
  | _ => fail UBadValue
  end.
(** [for (x : l) delete x] *)
Fixpoint del_all (l : list val) : M unit :=
  match l with [] => ret tt | x :: l' => del x ;; del_all l' end.

(** yyerror, bison_parser.y:25-29, with SQLParserResult::setErrorDetails (SQLParserResult.cpp:44-48): the old message
    pointer is overwritten, not freed. *)
Definition yyerror_at (line col : Z) (msg : bytes) : M unit :=
  m <- snew msg ;; fun e => ROk tt (set_error m (VInt line) (VInt col) e).
(** Calls from grammar actions pass &yyloc. *)
Definition yyerror (msg : bytes) : M unit := fun e => yyerror_at (l_fl (e_loc e)) (l_fc (e_loc e)) msg e.
(** YYERROR *)
Definition YYERROR {A} : M A := fun e => RErr e.

(** strcasecmp(a, b) == 0 *)
Definition casecmp (a b : bytes) : bool := bytes_eqb (map lower a) (map lower b).

(** sscanf.  isspace in the C locale. *)
Definition is_space (c : ascii) : bool := (bz c =? 32)%Z || in_range 9 13 c.
Fixpoint skip_space (s : bytes) : bytes :=
  match s with c :: s' => if is_space c then skip_space s' else s | [] => [] end.
(** Digits of a %d conversion, at most [w] characters: accumulated value, number of digits, rest. *)
Fixpoint scan_digits (w : nat) (acc : Z) (n : nat) (s : bytes) : Z * nat * bytes :=
  match w, s with
  | S w', c :: s' => if is_digit c then scan_digits w' (acc * 10 + digit_val c) (S n) s' else (acc, n, s)
  | _, _ => (acc, n, s)
  end.
(** One %d / %<w>d conversion: skip white space, optional sign (counts for the width), at least one digit.
    [None] = matching or input failure. *)
Definition scan_d (w : nat) (s : bytes) : option (Z * bytes) :=
  match skip_space s with
  | [] => None
  | c :: s' =>
    let sgn := byte_eqb c "-"%char || byte_eqb c "+"%char in
    let w' := if sgn then Nat.pred w else w in
    let body := if sgn then s' else c :: s' in
    match scan_digits w' 0 0 body with
    | (_, O, _) => None
    | (v, _, r) => Some ((if byte_eqb c "-"%char then - v else v)%Z, r)
    end
  end.
Definition INT_MAX : Z := 2147483647.
Definition INT_MIN : Z := -2147483648.
Definition fits_int (z : Z) : bool := ((INT_MIN <=? z) && (z <=? INT_MAX))%Z.
(** A literal '-' in the format. *)
Definition scan_dash (s : bytes) : option bytes :=
  match s with c :: s' => if byte_eqb c "-"%char then Some s' else None | [] => None end.
(** %7s: skip white space, then 1..7 non-space characters. *)
Fixpoint scan_word (w : nat) (s : bytes) : bytes * bytes :=
  match w, s with
  | S w', c :: s' => if is_space c then ([], s) else let (x, r) := scan_word w' s' in (c :: x, r)
  | _, _ => ([], s)
  end.

(** sscanf(s, "%4d-%2d-%2d%n", ...) == 3 and s[chars_parsed] == 0; bison_parser.y:1253. *)
Definition scan_date (s : bytes) : bool :=
  match scan_d 4 s with
  | Some (_, r1) =>
    match scan_dash r1 with
    | Some r2 =>
      match scan_d 2 r2 with
      | Some (_, r3) =>
        match scan_dash r3 with
        | Some r4 => match scan_d 2 r4 with Some (_, []) => true | _ => false end
        | None => false
        end
      | None => false
      end
    | None => false
    end
  | None => false
  end.
(** Outcome of the interval scans: rejected, or the duration (and unit); overflow of int is undefined. *)
Inductive scanres := SNo | SYes (d : Z) (unit_ : bytes) | SUB.
(** sscanf(s, "%d%n", &duration, &chars_parsed) == 1 and s[chars_parsed] == 0; bison_parser.y:1265.  An unbounded width is
    the length of the string. *)
Definition scan_interval1 (s : bytes) : scanres :=
  match scan_d (Datatypes.length s) s with
  | Some (d, r) => if fits_int d then match r with [] => SYes d [] | _ => SNo end else SUB
  | None => SNo
  end.
(** sscanf(s, "%d %7s%n", &duration, unit_string, &chars_parsed) == 2 and s[chars_parsed] == 0; bison_parser.y:1278. *)
Definition scan_interval2 (s : bytes) : scanres :=
  match scan_d (Datatypes.length s) s with
  | Some (d, r) =>
    if fits_int d then
      match scan_word 7 (skip_space r) with
      | ([], _) => SNo
      | (u, []) => SYes d u
      | _ => SNo
      end
    else SUB
  | None => SNo
  end.
