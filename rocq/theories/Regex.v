(** Specification: regular expressions over bytes, used to state the rules of /repo/src/parser/flex_lexer.l independently
    of the scanner's tables. *)
From Verif Require Import Base.
Local Open Scope Z_scope.
Set Implicit Arguments.
Unset Strict Implicit.

(** [Cls neg l]: one byte inside (outside if [neg]) the ranges [l]; NUL is never matched: it cannot occur in a C string. *)
Inductive rx := Nothing | Eps | Cls (neg : bool) (l : list (Z * Z)) | Cat (a b : rx) | Alt (a b : rx) | Star (a : rx).
Definition in_class (neg : bool) (l : list (Z * Z)) (c : ascii) : bool :=
  negb (bz c =? 0) && xorb neg (existsb (fun p => (fst p <=? bz c) && (bz c <=? snd p)) l).
Inductive matches : rx -> bytes -> Prop :=
| m_eps : matches Eps []
| m_cls : forall n l c, in_class n l c = true -> matches (Cls n l) [c]
| m_cat : forall a b u v, matches a u -> matches b v -> matches (Cat a b) (u ++ v)
| m_left : forall a b u, matches a u -> matches (Alt a b) u
| m_right : forall a b u, matches b u -> matches (Alt a b) u
| m_done : forall a, matches (Star a) []
| m_more : forall a u v, matches a u -> matches (Star a) v -> matches (Star a) (u ++ v).
(** The usual abbreviations. *)
Definition Plus (a : rx) : rx := Cat a (Star a).
Definition Chr (c : ascii) : rx := Cls false [(bz c, bz c)].
(** %option case-insensitive: a letter matches both cases. *)
Definition Letter (c : ascii) : rx :=
  if is_alpha c then Cls false [(bz (lower c) - 32, bz (lower c) - 32); (bz (lower c), bz (lower c))] else Chr c.
Fixpoint Word (s : bytes) : rx := match s with [] => Eps | [c] => Letter c | c :: s' => Cat (Letter c) (Word s') end.
Definition Blank : rx := Cls false [(32, 32); (9, 9); (10, 10)].
Definition Digit : rx := Cls false [(48, 57)].
Definition Any : rx := Cls true [(10, 10)].
