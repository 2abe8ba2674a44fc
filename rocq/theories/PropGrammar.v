(** Properties C04, C05 and the consequences of C09 and C10 for parse.

    Vocabulary.  [derives], [yield] (Grammar.v): derivation trees over the productions of bison_parser.y.  [respects] (Prec.v):
    the tree respects the precedence declarations of bison_parser.y:318-338.  [need] (Prec.v): number of stack entries needed.
    [sem] (Sem.v): the statements a derivation denotes.  [erase] forgets addresses and stringLength. *)
From Verif Require Import Trees PropLex.
From Coq Require Import ZifyBool ZifyNat ZifyN.
Local Open Scope nat_scope.

(** ** C04: completeness *)
Theorem C04_completeness : forall buf0 sql ts stmts semi eof l n, tokens sql ts ->
  derives S_input (Node 2 [stmts; semi]) -> yield (Node 2 [stmts; semi]) ++ [eof] = ts -> sym_of eof = 0%N ->
  respects (Node 2 [stmts; semi]) 0 = true -> need (Node 2 [stmts; semi]) <= 198 -> sem stmts 0 = Some (VVec 0 l, n) ->
  exists e, parse buf0 sql fresh_env = PRet 0 e /\ e_valid e = true /\ map erase (e_stmts e) = l /\ List.length (e_params e) = n.
Proof.
  intros buf0 sql ts stmts semi eof l n T D Y K R N S. assert (M : means ts l n) by (exists stmts, semi, eof; unfold parses_as; auto 10).
  apply (parse_means (B := fun _ => 0) buf0 (e0 := fresh_env) T eq_refl eq_refl heap_fresh) in M. destruct M as (e & l' & E & V & ES & EM & EN). exists e. cbn [fresh_env e_stmts app] in ES. subst l'. auto.
Qed.
(** The parse is valid exactly if there is such a derivation. *)
Theorem C04_valid_iff : forall buf0 sql ts r e, tokens sql ts -> parse buf0 sql fresh_env = PRet r e ->
  (e_valid e = true <-> exists stmts semi eof l n,
     derives S_input (Node 2 [stmts; semi]) /\ yield (Node 2 [stmts; semi]) ++ [eof] = ts /\ sym_of eof = 0%N /\
     respects (Node 2 [stmts; semi]) 0 = true /\ need (Node 2 [stmts; semi]) <= 198 /\ sem stmts 0 = Some (VVec 0 l, n)).
Proof.
  intros buf0 sql ts r e T P. rewrite (parse_valid (B := fun _ => 0) (e0 := fresh_env) T eq_refl eq_refl heap_fresh P). split.
  - intros (l & n & tl & semi & k & (A1 & A2 & A3 & A4 & A5) & S). exists tl, semi, k, l, n. auto 10.
  - intros (tl & semi & k & l & n & A1 & A2 & A3 & A4 & A5 & S). exists l, n, tl, semi, k. unfold parses_as. auto 10.
Qed.
Definition sample : bytes := la "SELECT a + b * c = d AND NOT e IS NULL OR f, COUNT(*) FROM t AS x LEFT JOIN u ON v = ? ORDER BY w LIMIT 3; COMMIT;".
Example C04_example : exists ts stmts semi eof l n, tokens sample ts /\ List.length ts = 40 /\
  derives S_input (Node 2 [stmts; semi]) /\ yield (Node 2 [stmts; semi]) ++ [eof] = ts /\ sym_of eof = 0%N /\
  respects (Node 2 [stmts; semi]) 0 = true /\ need (Node 2 [stmts; semi]) <= 198 /\ sem stmts 0 = Some (VVec 0 l, n).
Proof.
  destruct (tokens_total sample) as (ts & T & _). exists ts.
  assert (P : exists e, parse [] sample fresh_env = PRet 0 e /\ e_valid e = true) by (eexists; split; vm_compute; reflexivity). destruct P as (e & P & V).
  apply (C04_valid_iff _ _ _ _ _ T P) in V. destruct V as (a & b & c & l & n & V). exists a, b, c, l, n. split; [exact T|]. split; [|exact V].
  assert (L : option_map (@List.length token) (lex_all [] sample) = Some 40) by (vm_compute; reflexivity). unfold tokens in T. rewrite T in L. cbn in L. congruence.
Qed.

(** ** C05: derivations are unique *)
Theorem C05_unambiguous : forall t1 t2 eof1 eof2, derives S_input t1 -> derives S_input t2 -> respects t1 0 = true -> respects t2 0 = true ->
  sym_of eof1 = 0%N -> sym_of eof2 = 0%N -> yield t1 ++ [eof1] = yield t2 ++ [eof2] -> t1 = t2.
Proof. intros t1 t2 k1 k2 D1 D2 R1 R2 K1 K2 Y. exact (derivation_unique D1 D2 R1 R2 K1 K2 Y). Qed.
(** Without the precedences there are two derivations of SELECT a - b - c with different statements: the hypothesis is needed. *)
Definition tk (c : Z) : token := mkTok c TVNone pos0 0.
Definition col (s : string) : tree := Node 190 [Node 199 [Node 276 [Leaf (mkTok TOK_IDENTIFIER (TVStr (la s)) pos0 0)]]].
Definition minus (a b : tree) : tree := Node 192 [Node 207 [a; Leaf (tk 45); b]].
Definition select_one (t : tree) : tree :=
  Node 2 [Node 3 [Node 6 [Node 10 [Node 124 [Node 335 []; Node 132 [Node 140 [Leaf (tk TOK_SELECT); Node 164 []; Node 142 []; Node 143 [Node 171 [Node 182 [Node 183 [t]; Node 320 []]]];
    Node 145 []; Node 148 []; Node 150 []]; Node 154 []; Node 170 []; Node 322 []]]]; Node 21 []]]; Node 355 []].
Example C05_example : let t1 := select_one (minus (minus (col "a") (col "b")) (col "c")) in let t2 := select_one (minus (col "a") (minus (col "b") (col "c"))) in
  derives S_input t1 /\ derives S_input t2 /\ yield t1 = yield t2 /\ sem t1 0 <> None /\ sem t2 0 <> None /\ respects t1 0 = true /\ respects t2 0 = false.
Proof.
  intros t1 t2. split; [apply (@wf_derives t1); vm_compute; reflexivity|]. split; [apply (@wf_derives t2); vm_compute; reflexivity|]. split; [vm_compute; reflexivity|].
  split; [vm_compute; discriminate|]. split; [vm_compute; discriminate|]. split; vm_compute; reflexivity.
Qed.

(** ** Consequences for C09 and C10 *)
(** [accepted_with sql l n]: parse accepts [sql] with statements [l] and [n] parameters. *)
Definition accepted_with (sql : bytes) (l : list val) (n : nat) : Prop :=
  forall buf0, exists e, parse buf0 sql fresh_env = PRet 0 e /\ e_valid e = true /\ map erase (e_stmts e) = l /\ List.length (e_params e) = n.
Lemma accepted_means sql ts l n : tokens sql ts -> (accepted_with sql l n <-> means ts l n).
Proof.
  intro T. split.
  - intro A. destruct (A []) as (e & E & V & EM & EN). apply (parse_means (B := fun _ => 0) [] (e0 := fresh_env) T eq_refl eq_refl heap_fresh). exists e, (e_stmts e). auto.
  - intros M buf0. apply (parse_means (B := fun _ => 0) buf0 (e0 := fresh_env) T eq_refl eq_refl heap_fresh) in M. destruct M as (e & l' & E & V & ES & EM & EN). exists e. cbn [fresh_env e_stmts app] in ES. subst l'. auto.
Qed.
(** Inputs scanned into the same codes and values are parsed alike. *)
Theorem same_tokens_same_result : forall sql sql' k, cores sql k -> cores sql' k -> forall l n, accepted_with sql l n <-> accepted_with sql' l n.
Proof.
  intros sql sql' k (ts & T & E) (ts' & T' & E') l n. rewrite (accepted_means _ _ _ _ T), (accepted_means _ _ _ _ T'). split; apply means_core; congruence.
Qed.
Theorem C10_layout_parse : forall a ws ws' b k, ~ In NUL (a ++ b) -> LexScan.blank ws -> LexScan.blank ws' -> boundary a (ws ++ b) k ->
  forall l n, accepted_with (a ++ ws ++ b) l n <-> accepted_with (a ++ ws' ++ b) l n.
Proof.
  intros a ws ws' b k N W W' BD l n. destruct (tokens_total (a ++ ws ++ b)) as (ts & T & _). eapply same_tokens_same_result with (k := map core ts); [exists ts; auto|].
  apply (C10_layout a ws ws' b k N W W' BD). exists ts. auto.
Qed.
Theorem C09_keyword_parse : forall a k k' b t r, ~ In NUL (a ++ k ++ b) -> boundary a (k ++ b) t -> (5 <= r <= 170)%Z -> best (active 1) (k ++ b) r (List.length k) -> k <> [] -> LexWords.same_case k k' ->
  forall l n, accepted_with (a ++ k ++ b) l n <-> accepted_with (a ++ k' ++ b) l n.
Proof.
  intros a k k' b t r N BD R BS NE SC l n. destruct (tokens_total (a ++ k ++ b)) as (ts & T & _). eapply same_tokens_same_result with (k := map core ts); [exists ts; auto|].
  apply (C09_keyword_case a k k' b t r N BD R BS NE SC). exists ts. auto.
Qed.
