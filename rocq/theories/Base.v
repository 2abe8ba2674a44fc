(** Common data: bytes, arrays, the outcome type.  No code of /repo is modelled in this file except that C arrays are
    represented by [arr] (binary tries), whose lookup is partial: an index outside the array is [None], which every
    caller turns into undefined behaviour. *)
From Coq Require Export List ZArith NArith Bool Lia Ascii String.
Export ListNotations.
Open Scope Z_scope.
Set Implicit Arguments.

(** Bytes of the input: [Ascii.ascii] = 8 bits; [bytes] = contents of a C string / std::string. *)
Definition bytes := list ascii.

(** String literal notation helper: bytes of a Coq string literal. *)
Fixpoint la (s : string) : bytes :=
  match s with EmptyString => [] | String c s' => c :: la s' end.

Definition byte_eqb (a b : ascii) : bool := N.eqb (N_of_ascii a) (N_of_ascii b).
Fixpoint bytes_eqb (a b : bytes) : bool :=
  match a, b with
  | [], [] => true
  | x :: a', y :: b' => byte_eqb x y && bytes_eqb a' b'
  | _, _ => false
  end.

(** Numeric value of a byte, [0..255] ([(unsigned char) c]). *)
Definition bz (c : ascii) : Z := Z.of_N (N_of_ascii c).
Definition NUL : ascii := Ascii.zero.
Definition LF : ascii := "010"%char.
Definition TAB : ascii := "009"%char.
Definition SP : ascii := " "%char.
Definition QUOTE : ascii := "'"%char.
Definition DQUOTE : ascii := """"%char.

Definition in_range (lo hi : Z) (c : ascii) : bool := (lo <=? bz c) && (bz c <=? hi).
Definition is_digit (c : ascii) : bool := in_range 48 57 c.
Definition is_upper (c : ascii) : bool := in_range 65 90 c.
Definition is_lower (c : ascii) : bool := in_range 97 122 c.
Definition is_alpha (c : ascii) : bool := is_upper c || is_lower c.
(** ASCII lower-casing, as done by [strcasecmp] in the C locale. *)
Definition lower (c : ascii) : ascii := if is_upper c then ascii_of_N (N_of_ascii c + 32) else c.

(** Arrays. *)
Inductive arr : Type := ANil | ANode (l : arr) (v : option Z) (r : arr).
Fixpoint aget (t : arr) (p : positive) : option Z :=
  match t with
  | ANil => None
  | ANode l v r => match p with xH => v | xO q => aget l q | xI q => aget r q end
  end.
Fixpoint aset (t : arr) (p : positive) (x : Z) : arr :=
  match p, t with
  | xH, ANil => ANode ANil (Some x) ANil
  | xH, ANode l _ r => ANode l (Some x) r
  | xO q, ANil => ANode (aset ANil q x) None ANil
  | xO q, ANode l v r => ANode (aset l q x) v r
  | xI q, ANil => ANode ANil None (aset ANil q x)
  | xI q, ANode l v r => ANode l v (aset r q x)
  end.
Fixpoint aof (l : list Z) (p : positive) (t : arr) : arr :=
  match l with [] => t | x :: l' => aof l' (Pos.succ p) (aset t p x) end.
(** [mkarr l] is the C array with initialiser [l]; element [i] is [get _ i]. *)
Definition mkarr (l : list Z) : arr := aof l 1 ANil.
Definition get (t : arr) (i : Z) : option Z :=
  match i with
  | Z0 => aget t 1
  | Zpos p => aget t (Pos.succ p)
  | Zneg _ => None
  end.

Definition obind {A B} (x : option A) (f : A -> option B) : option B :=
  match x with Some a => f a | None => None end.
Notation "x <-o e ; k" := (obind e (fun x => k)) (at level 60, e at next level, right associativity).
