(** Specification: derivation trees of the grammar of /repo/src/parser/bison_parser.y (GrammarDef.v), independent of the
    parser's tables and of the driver. *)
From Verif Require Import Base BisonTables TokenCodes GrammarDef LexModel ParseModel.
Local Open Scope N_scope.

(** Right-hand and left-hand side of a production. *)
Definition production (r : N) : option (N * list N) :=
  match find (fun p => N.eqb (fst p) r) grammar with Some p => Some (snd p) | None => None end.

(** The terminal symbol of a token (bison: yytranslate of the code; codes <= 0 are the end of input). *)
Definition sym_of_code (c : Z) : N :=
  if (c <=? 0)%Z then 0 else match yytranslate_of c with Some t => Z.to_N t | None => 2 end.
Definition sym_of (t : token) : N := sym_of_code (t_code t).

(** Derivation trees. *)
Inductive tree := Leaf (t : token) | Node (r : N) (ts : list tree).

Fixpoint yield (t : tree) : list token :=
  match t with Leaf k => [k] | Node _ ts => flat_map yield ts end.
Definition yields (ts : list tree) : list token := flat_map yield ts.

(** [derives X t]: [t] is a derivation tree with root symbol [X]. *)
Inductive derives : N -> tree -> Prop :=
| d_leaf : forall t, derives (sym_of t) (Leaf t)
| d_node : forall r lhs rhs ts, production r = Some (lhs, rhs) -> derives_list rhs ts -> derives lhs (Node r ts)
with derives_list : list N -> list tree -> Prop :=
| d_nil : derives_list [] []
| d_cons : forall X Xs t ts, derives X t -> derives_list Xs ts -> derives_list (X :: Xs) (t :: ts).

Scheme derives_mind := Induction for derives Sort Prop with derives_list_mind := Induction for derives_list Sort Prop.
