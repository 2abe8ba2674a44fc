(** Property C58: the whole work of reading a text is linear in its length.

    Vocabulary.  [lex_all_t buf0 sql] (LexTime.v) is the scan of the whole text, together with the number of rounds of all the
    scanner's loops it takes; [rounds] (Driver.v) is the number of rounds of the parser's loop. *)
From Verif Require Import Script PropParse LexTotal LexTime TimeProof.
From Coq Require Import ZifyBool ZifyNat ZifyN.
Local Open Scope nat_scope.

(** The clock only watches: the scanner with a clock delivers what the scanner of LexModel.v delivers. *)
Theorem C58_same_tokens : forall buf0 sql, fst (lex_all_t buf0 sql) = lex_all buf0 sql.
Proof. exact lex_all_erase. Qed.
Theorem C58_scan_linear : forall buf0 sql, snd (lex_all_t buf0 sql) <= 256 * List.length sql + 13.
Proof.
  intros buf0 sql. unfold lex_all_t. cbv zeta. pose proof (@scan_cost (S (List.length (c_string sql))) (lex_init buf0) 0%Z (c_string sql)) as C.
  destruct (lex_tokens_t (S (List.length (c_string sql))) (lex_init buf0) 0%Z (c_string sql)) as [o k]. cbn [snd] in *.
  assert (L : List.length (c_string sql) <= List.length sql).
  { clear. induction sql as [|c sql IH]; cbn [c_string List.length]; [lia|]. destruct (byte_eqb c NUL); cbn [List.length]; lia. }
  specialize (C ltac:(left; reflexivity) (c_string_NUL (s:=sql)) ltac:(lia)). lia.
Qed.
(** Scanner and parser together. *)
Theorem C58_parse_linear : forall buf0 sql e, exists ts k,
  lex_all_t buf0 sql = (Some ts, k) /\
  k + rounds (parse_fuel (List.length ts)) (parse_init ts e) <= 273 * List.length sql + 246.
Proof.
  intros buf0 sql e. destruct (C01_parse_terminates buf0 sql e) as (ts & T & LT & _ & R & _). exists ts, (snd (lex_all_t buf0 sql)).
  pose proof (C58_scan_linear buf0 sql) as S. split; [|lia]. destruct (tokens_total sql) as (ts' & T' & _ & _ & LB). specialize (LB buf0).
  rewrite <- C58_same_tokens in LB. destruct (lex_all_t buf0 sql) as [o k]. cbn [fst snd] in *. subst o.
  unfold tokens in T, T'. rewrite T in T'. injection T' as <-. reflexivity.
Qed.
(** The case the bound is about: the word CURRENT before a run of blanks makes the scanner read all of them (CURRENT ROW is one
    token), go back, and read them again; here 60 bytes cost more than 2 rounds per byte.  And a quotation mark that is
    never closed makes it read to the end of the text. *)
Example C58_example :
  (exists k, lex_all_t [] (la "CURRENT                                       x CHARACTER \n") = (lex_all [] (la "CURRENT                                       x CHARACTER \n"), k) /\ 300 < k) /\
  60 < snd (lex_all_t [] (la "a """ ++ repeat "b"%char 60)).
Proof. split; [eexists; split; [vm_compute; reflexivity|vm_compute; lia]|vm_compute; lia]. Qed.
