(** Specification: pieces of SQL text together with what they denote.  Independent of the parser; no code of /repo except the object
    constructors of Sem.v. *)
From Verif Require Import Base TokenCodes LexModel Ast Heap Actions ParseModel Grammar Sem.
Local Open Scope nat_scope.

(** Tokens: code and value (TokenCodes.v, LexModel.v). *)
Definition tokens_ := list (Z * tokval).
Definition K (c : Z) : Z * tokval := (c, TVNone).
Definition Id (s : bytes) : Z * tokval := (TOK_IDENTIFIER, TVStr s).
Definition Num (z : Z) : Z * tokval := (TOK_INTVAL, TVInt z).
Definition lpar := K 40. Definition rpar := K 41. Definition comma := K 44. Definition dot := K 46.
Definition str (s : bytes) : val := VStr 0 s.
Definition opt {A} (f : A -> tokens_) (o : option A) : tokens_ := match o with Some x => f x | None => [] end.
(** Comma separated. *)
Fixpoint commas (l : list tokens_) : tokens_ := match l with [] => [] | [x] => x | x :: l' => x ++ [comma] ++ commas l' end.
(** Objects of a list, numbering the parameters from left to right. *)
Section Numbered.
Context {A : Type} (obj : A -> nat -> val) (params : A -> nat).
Fixpoint numbered_list (l : list A) (k : nat) : list val := match l with [] => [] | x :: l' => obj x k :: numbered_list l' (k + params x) end.
End Numbered.
(** The parser stack entries used.  [stack] of a sequence: the i-th part is parsed on top of i entries. *)
Fixpoint stack_from (i : nat) (l : list nat) : nat := match l with [] => 1 | m :: l' => Nat.max (i + m) (stack_from (S i) l') end.
Definition stack (l : list nat) : nat := stack_from 0 l.
(** Lists are kept on two entries, whatever their length. *)
Definition list_stack (l : list nat) : nat := fold_right (fun m n => Nat.max (2 + m) n) 1 l.

(** A piece of text: its tokens, its value when [k] parameters (question marks) precede it, whether its semantic checks succeed, its number of
    parameters, the parser stack entries it uses. *)
Record part := mkPart { q_tok : tokens_; q_obj : nat -> val; q_ok : nat -> bool; q_params : nat; q_stack : nat }.
Definition token_part (c : Z * tokval) (v : val) : part := mkPart [c] (fun _ => v) (fun _ => true) 0 1.
Definition kw (c : Z) : part := token_part (K c) VUninit.
Definition pid (s : bytes) : part := token_part (Id s) (str s).
Definition pnum (z : Z) : part := token_part (Num z) (VInt z).
Definition pstring (s : bytes) : part := token_part (TOK_STRING, TVStr s) (str s).
Definition pfloat (f : bytes) : part := token_part (TOK_FLOATVAL, TVFlt f) (VFlt f).
(** An absent optional part. *)
Definition nothing (v : val) : part := mkPart [] (fun _ => v) (fun _ => true) 0 1.
(** Values of consecutive parts. *)
Definition values (ps : list part) (k : nat) : list val := numbered_list q_obj q_params ps k.
Fixpoint all_ok (ps : list part) (k : nat) : bool := match ps with [] => true | p :: ps' => q_ok p k && all_ok ps' (k + q_params p) end.
Definition total (ps : list part) : nat := list_sum (map q_params ps).
(** Consecutive parts: the value is [f] of their values, the check [ok] is on their values. *)
Definition seqp (f : list val -> val) (ok : list val -> bool) (ps : list part) : part :=
  mkPart (flat_map q_tok ps) (fun k => f (values ps k)) (fun k => all_ok ps k && ok (values ps k)) (total ps) (stack (map q_stack ps)).
Definition seq_ (f : list val -> val) (ps : list part) : part := seqp f (fun _ => true) ps.
(** Comma separated list. *)
Definition plist (ps : list part) : part := mkPart (commas (map q_tok ps)) (fun k => vec (values ps k)) (all_ok ps) (total ps) (list_stack (map q_stack ps)).
(** Value of the i-th part, from 1. *)
Definition arg (i : nat) (v : list val) : val := nth (Nat.pred i) v VUninit.
(** A part in parentheses. *)
Definition paren (p : part) : part := seq_ (arg 2) [kw 40; p; kw 41].
