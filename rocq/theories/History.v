(** A program that uses any number of result objects: every call of the public interface that creates, changes or destroys one.
    (Specification of the clients of /repo; the called functions are those of Api.v and the three setters below.) *)
From Verif Require Import Base TokenCodes LexModel Ast Heap Actions ParseModel Api.
Open Scope nat_scope.

(** addStatement(), SQLParserResult.cpp:26. *)
Definition addStatement (s : val) (r : result) : result :=
  mkRes (r_valid r) (r_stmts r ++ [s]) (r_msg r) (r_line r) (r_col r) (r_params r).
(** setIsValid(), SQLParserResult.cpp:42. *)
Definition setIsValid (b : bool) (r : result) : result :=
  mkRes b (r_stmts r) (r_msg r) (r_line r) (r_col r) (r_params r).
(** setErrorDetails(), SQLParserResult.cpp:44-48: takes the message over, forgets the old one, leaves isValid_ alone. *)
Definition setErrorDetails (m : val) (line col : Z) (r : result) : result :=
  mkRes (r_valid r) (r_stmts r) m (VInt line) (VInt col) (r_params r).

(** The objects of the program, in the order of their creation ([None]: destroyed); the statements the program itself owns, in the order in
    which releaseStatements delivered them ([None]: deleted or given to a result object); the machine. *)
Record pool := mkPool { p_objs : list (option result); p_stmts : list (option val); p_env : env }.
Definition nothing : pool := mkPool [] [] fresh_env.

Inductive call :=
| New                                           (* SQLParserResult r; *)
| NewWith (n : nat)                             (* SQLParserResult r(s);  s: the program's n-th statement *)
| NewMove (j : nat)                             (* SQLParserResult r(std::move(r_j)); *)
| Assign (i j : nat)                            (* r_i = std::move(r_j);  i <> j *)
| Parse (i : nat) (buf0 sql : bytes)            (* SQLParser::parse(sql, &r_i);  buf0: leftover of the scanner's string buffer *)
| Reset (i : nat)                               (* r_i.reset(); *)
| Release (i : nat)                             (* r_i.releaseStatements(); *)
| Add (i n : nat)                               (* r_i.addStatement(s);  s: the program's n-th statement *)
| SetValid (i : nat) (b : bool)                 (* r_i.setIsValid(b); *)
| SetError (i : nat) (m : bytes) (l c : Z)      (* r_i.setErrorDetails(strdup(m), l, c); *)
| Destroy (i : nat)                             (* the end of the life of r_i *)
| Delete (n : nat).                             (* delete s;  s: the program's n-th statement *)

(** The outcome of a call: done, undefined behaviour, or the program names an object or a statement it does not have. *)
Inductive outcome := Done (p : pool) | Undefined (u : ub) | Misuse.

Definition slot {A} (i : nat) (l : list (option A)) : option A := nth i l None.
Fixpoint upd {A} (i : nat) (x : option A) (l : list (option A)) : list (option A) :=
  match l, i with
  | [], _ => []
  | _ :: l', 0 => x :: l'
  | y :: l', S i' => y :: upd i' x l'
  end.
(** Running a library function on the machine. *)
Definition done {A} (m : res A) (k : A -> env -> pool) : outcome :=
  match m with ROk a e => Done (k a e) | RErr _ => Undefined UBadValue | RUB u => Undefined u end.

Definition exec (c : call) (p : pool) : outcome :=
  let '(mkPool os ss e) := p in
  match c with
  | New => Done (mkPool (os ++ [Some ctor]) ss e)
  | NewWith n => match slot n ss with Some s => Done (mkPool (os ++ [Some (ctor_stmt s)]) (upd n None ss) e) | None => Misuse end
  | NewMove j => match slot j os with Some r => done (move_ctor r e) (fun '(new, old) e' => mkPool (upd j (Some old) os ++ [Some new]) ss e') | None => Misuse end
  | Assign i j =>
    if i =? j then Misuse else
    match slot i os, slot j os with
    | Some d, Some s => done (move_assign d s e) (fun '(d', s') e' => mkPool (upd i (Some d') (upd j (Some s') os)) ss e')
    | _, _ => Misuse
    end
  | Parse i buf0 sql =>
    match slot i os with
    | Some r => match parse_into buf0 sql r e with PRet _ e' => Done (mkPool (upd i (Some (the_result e')) os) ss e') | PUB u => Undefined u | PFuel => Undefined UTable end
    | None => Misuse
    end
  | Reset i => match slot i os with Some r => done (reset r e) (fun r' e' => mkPool (upd i (Some r') os) ss e') | None => Misuse end
  | Release i => match slot i os with Some r => let (l, r') := releaseStatements r in Done (mkPool (upd i (Some r') os) (ss ++ map Some l) e) | None => Misuse end
  | Add i n => match slot i os, slot n ss with Some r, Some s => Done (mkPool (upd i (Some (addStatement s r)) os) (upd n None ss) e) | _, _ => Misuse end
  | SetValid i b => match slot i os with Some r => Done (mkPool (upd i (Some (setIsValid b r)) os) ss e) | None => Misuse end
  | SetError i m l c => match slot i os with Some r => done (snew m e) (fun v e' => mkPool (upd i (Some (setErrorDetails v l c r)) os) ss e') | None => Misuse end
  | Destroy i => match slot i os with Some r => done (destroy r e) (fun _ e' => mkPool (upd i None os) ss e') | None => Misuse end
  | Delete n => match slot n ss with Some s => done (del s e) (fun _ e' => mkPool os (upd n None ss) e') | None => Misuse end
  end.
