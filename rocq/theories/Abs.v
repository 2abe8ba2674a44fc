(** The parser without values: a pushdown machine on derivation trees, steered by the same tables.  Used to show that the course of a
    parse depends on the tokens only.  No code of /repo (the tables' meaning, [decide] and [goto_of], is ParseModel.v). *)
From Verif Require Export Base BisonTables TokenCodes LexModel Ast Heap Actions ParseModel TableCheck Driver Grammar.
From Coq Require Import ZifyBool ZifyNat ZifyN.
Local Open Scope nat_scope.
Set Implicit Arguments.
Unset Strict Implicit.

(** [a_stk]: states and trees, top first, without the bottom entry (state 0). *)
Record astate := mkA { a_stk : list (Z * tree); a_look : option token; a_toks : list token }.
Definition atop (l : list (Z * tree)) : Z := match l with [] => 0%Z | (s, _) :: _ => s end.
Definition atok (l : option token) : option Z := match l with Some t => Some (Z.of_N (sym_of t)) | None => None end.
Definition atrees (a : astate) : list tree := rev (map snd (a_stk a)).
Definition alook (a : astate) : list token := match a_look a with Some t => [t] | None => [] end.
Inductive aout :=
| ACont (a : astate)
| AAccept
| AExhausted
| ASyntax
| AStuck.
Definition astep (a : astate) : aout :=
  let s := atop (a_stk a) in
  if 199 <=? List.length (a_stk a) then AExhausted
  else if (s =? YYFINAL)%Z then AAccept
  else match decide s (atok (a_look a)) with
  | None => AStuck
  | Some DRead => match a_toks a with t :: ts => ACont (mkA (a_stk a) (Some t) ts) | [] => AStuck end
  | Some (DShift s') => match a_look a with Some t => ACont (mkA ((s', Leaf t) :: a_stk a) None (a_toks a)) | None => AStuck end
  | Some (DReduce r) =>
    match production (Z.to_N r) with
    | None => AStuck
    | Some (lhs, rhs) =>
      let n := List.length rhs in
      let rest := skipn n (a_stk a) in
      match goto_of (atop rest) (Z.of_N lhs) with
      | Some g => ACont (mkA ((g, Node (Z.to_N r) (map snd (rev (firstn n (a_stk a))))) :: rest) (a_look a) (a_toks a))
      | None => AStuck
      end
    end
  | Some DError => ASyntax
  end.
(** [asteps a b]: [b] is reached from [a]. *)
Inductive asteps : astate -> astate -> Prop :=
| as_refl : forall a, asteps a a
| as_step : forall a b c, astep a = ACont b -> asteps b c -> asteps a c.
Definition astart (ts : list token) : astate := mkA [] None ts.
Lemma asteps_trans a b c : asteps a b -> asteps b c -> asteps a c.
Proof. induction 1; intros; [assumption|]. eapply as_step; eauto. Qed.
Lemma asteps_one a b : astep a = ACont b -> asteps a b.
Proof. intro E. eapply as_step; [exact E|constructor]. Qed.
(** Determinism. *)
Lemma asteps_det a b : asteps a b -> forall c, asteps a c -> asteps b c \/ asteps c b.
Proof.
  induction 1 as [a|a x b E H IH]; intros c C; [now left|]. inversion C as [|? y ? E2 H2]; subst.
  - right. eapply as_step; eassumption.
  - rewrite E in E2. injection E2 as <-. auto.
Qed.
Lemma asteps_end a b c : asteps a b -> asteps a c -> (forall x, astep b <> ACont x) -> (forall x, astep c <> ACont x) -> b = c.
Proof.
  intros H1 H2 N1 N2. destruct (asteps_det H1 H2) as [H|H]; inversion H; subst; try reflexivity; exfalso; [eapply N1|eapply N2]; eassumption.
Qed.
(** The yield is never lost. *)
Lemma atrees_cons g t l k ts : atrees (mkA ((g, t) :: l) k ts) = atrees (mkA l k ts) ++ [t].
Proof. unfold atrees. cbn [a_stk map rev snd]. reflexivity. Qed.
Lemma atrees_split n l k ts : atrees (mkA l k ts) = atrees (mkA (skipn n l) k ts) ++ map snd (rev (firstn n l)).
Proof. unfold atrees. cbn [a_stk]. rewrite <- (firstn_skipn n l) at 1. rewrite map_app, rev_app_distr, map_rev. reflexivity. Qed.
Definition atext (a : astate) : list token := yields (atrees a) ++ alook a ++ a_toks a.
