(** Specification: operator precedence.  The declarations of bison_parser.y:318-338 and what it means for a derivation tree to
    respect them, independent of the parser's tables. *)
From Verif Require Import Base TokenCodes GrammarDef LexModel ParseModel Grammar.
Local Open Scope N_scope.

Inductive assoc := LeftA | RightA | NonA.
(** bison_parser.y:318-338, lowest precedence first. *)
Definition precedences : list (assoc * list N) := [
  (LeftA, [S_OR]);
  (LeftA, [S_AND]);
  (RightA, [S_NOT]);
  (NonA, [S_eq; S_EQUALS; S_NOTEQUALS; S_LIKE; S_ILIKE]);
  (NonA, [S_lt; S_gt; S_LESS; S_GREATER; S_LESSEQ; S_GREATEREQ]);
  (NonA, [S_NOTNULL]);
  (NonA, [S_ISNULL]);
  (NonA, [S_IS]);
  (LeftA, [S_plus; S_minus]);
  (LeftA, [S_star; S_slash; S_percent]);
  (LeftA, [S_caret]);
  (LeftA, [S_CONCAT]);
  (RightA, [S_UMINUS]);
  (LeftA, [S_lbrack; S_rbrack]);
  (LeftA, [S_lpar; S_rpar]);
  (LeftA, [S_dot]);
  (LeftA, [S_JOIN])].
Fixpoint level_in (l : list (assoc * list N)) (n : nat) (X : N) : option (nat * assoc) :=
  match l with
  | [] => None
  | (a, Xs) :: l' => if existsb (N.eqb X) Xs then Some (n, a) else level_in l' (S n) X
  end.
(** Precedence of a terminal; of a production: that of its last terminal (bison's rule; the grammar has no %prec). *)
Definition token_level (X : N) : option (nat * assoc) := level_in precedences 1 X.
Definition terminal (X : N) : bool := X <? 199.
Definition rule_level (r : N) : option (nat * assoc) :=
  match production r with
  | Some (_, rhs) => match filter terminal (rev rhs) with X :: _ => token_level X | [] => None end
  | None => None
  end.
(** Production against following token: the production is finished first / the token is taken first.  For non-associative
    operators of the same level neither is allowed. *)
Definition reduce_wins (r a : N) : bool :=
  match rule_level r, token_level a with
  | Some (n, _), Some (m, s) => Nat.ltb m n || Nat.eqb m n && match s with LeftA => true | _ => false end
  | _, _ => false
  end.
Definition shift_wins (r a : N) : bool :=
  match rule_level r, token_level a with
  | Some (n, _), Some (m, s) => Nat.ltb n m || Nat.eqb m n && match s with RightA => true | _ => false end
  | _, _ => false
  end.
(** The prefix and infix operator productions, bison_parser.y (unary_expr, binary_expr, logic_expr, comp_expr): they end with an
    operand which a following operator token could extend. *)
Definition operators : list N := [201; 202; 207; 208; 209; 210; 211; 212; 213; 214; 215; 216; 217; 218; 231; 232; 233; 234; 235; 236; 237].
Definition is_operator (r : N) : bool := existsb (N.eqb r) operators.
(** Tokens that can extend an operand, and an expression. *)
Definition after_operand : list N :=
  [S_NOT; S_eq; S_EQUALS; S_NOTEQUALS; S_LIKE; S_ILIKE; S_lt; S_gt; S_LESSEQ; S_GREATEREQ; S_ISNULL; S_IS; S_plus; S_minus; S_star; S_slash;
   S_percent; S_caret; S_CONCAT; S_lbrack].
Definition after_expr : list N := [S_AND; S_OR].
Definition extends (r a : N) : bool :=
  existsb (N.eqb a) (if existsb (N.eqb r) [217; 218] then after_expr else after_operand).
(** May production [r] be followed by token [a]? *)
Definition may_end (r a : N) : bool := negb (is_operator r && extends r a) || reduce_wins r a.
(** May token [a] extend the last operand of production [r]? *)
Definition may_extend (r a : N) : bool := negb (is_operator r && extends r a) || shift_wins r a.

(** The operator tokens on the left edge of a tree: second symbols of the productions met by following first children. *)
Fixpoint left_edge (t : tree) : list N :=
  match t with
  | Leaf _ => []
  | Node _ ts =>
    match ts with
    | [] => []
    | u :: ts' => (match ts' with Leaf k :: _ => [sym_of k] | _ => [] end) ++ left_edge u
    end
  end.
(** First token of a sequence of trees followed by [nx]. *)
Definition first_of (ts : list tree) (nx : N) : N := match yields ts with [] => nx | k :: _ => sym_of k end.
(** The operator tokens extending the last operand of a production must take precedence over it. *)
Definition tail_ok (r : N) (ts : list tree) : bool :=
  match rev ts with [] => true | u :: _ => forallb (may_extend r) (left_edge u) end.
(** [respects t nx]: the tree, followed by the token [nx], respects the declarations. *)
Fixpoint respects (t : tree) (nx : N) : bool :=
  match t with
  | Leaf _ => true
  | Node r ts =>
    may_end r nx && tail_ok r ts &&
    (fix go (ts : list tree) : bool := match ts with [] => true | u :: us => respects u (first_of us nx) && go us end) ts
  end.
Fixpoint respects_all (ts : list tree) (nx : N) : bool :=
  match ts with [] => true | u :: us => respects u (first_of us nx) && respects_all us nx end.

(** Entries of the parser stack needed to parse the tree: the left siblings stay on the stack. *)
Fixpoint need (t : tree) : nat :=
  match t with
  | Leaf _ => 1
  | Node _ ts => (fix go (ts : list tree) (i : nat) : nat := match ts with [] => 1 | u :: us => Nat.max (i + need u) (go us (S i)) end) ts O
  end%nat.
Fixpoint need_all (ts : list tree) (i : nat) : nat :=
  match ts with [] => 1 | u :: us => Nat.max (i + need u) (need_all us (S i)) end%nat.
