(** Specification: what the library says when one of its semantic checks fails, by the production of bison_parser.y the check belongs to
    (the texts are those of the yyerror calls in /repo/src/parser/bison_parser.y:485-711, 1033-1052, 1091-1104, 1250-1303).
    [args]: the meanings of the symbols on the right-hand side, as in [asem] (Sem.v). *)
From Verif Require Import Base TokenCodes LexModel Ast Heap Actions GrammarDef Grammar Sem.
Local Open Scope N_scope.

Definition complaint (r : N) (args : list val) : bytes :=
  let d (i : nat) := nth (Nat.pred i) args VUninit in
  match r with
  (* file_type; CREATE TABLE .. FROM *)
  | 37 | 55 => la "File type is unknown."
  (* import_export_options ',' FORMAT file_type *)
  | 42 => if is_enum (fget F_format (d 1%nat)) kImportAuto then la "CSV options (DELIMITER, NULL, QUOTE) are only allowed for CSV files."
          else la "File type must only be provided once."
  (* import_export_options ',' ENCODING STRING *)
  | 44 => la "Encoding type must only be provided once."
  (* import_export_options ',' csv_option *)
  | 46 => if is_enum (fget F_format (d 1%nat)) kImportAuto || is_enum (fget F_format (d 1%nat)) kImportCSV
          then la "CSV options (DELIMITER, NULL, QUOTE) cannot be provided more than once."
          else la "CSV options (DELIMITER, NULL, QUOTE) are only allowed for CSV files."
  (* csv_option: IDENTIFIER STRING *)
  | 48 => la "Unknown CSV option."
  (* column_def *)
  | 66 => (la "Conflicting nullability constraints for " ++ text (d 1%nat))%list
  (* opt_null_ordering: IDENTIFIER IDENTIFIER *)
  | 162 => la "Expected NULLS FIRST or NULLS LAST ordering."
  (* extended_literal: literal *)
  | 179 => la "Parameter ? is not a valid literal."
  (* DATE STRING *)
  | 294 => la "Found incorrect date format. Expected format: YYYY-MM-DD"
  (* INTERVAL STRING duration_field *)
  | 296 => la "Found incorrect interval format. Expected format: INTEGER"
  (* INTERVAL STRING *)
  | 297 => match scan_interval2 (text (d 2%nat)) with
           | SYes _ _ => la "Interval qualifier is unknown."
           | _ => la "Found incorrect interval format. Expected format: INTEGER INTERVAL_QUALIIFIER"
           end
  | _ => []
  end.

(** The text read as the tree [t] fails a check: its parts have meanings (after [k] parameters), but the whole has none, and [m] says why. *)
Definition objectionable (t : tree) (m : bytes) : Prop :=
  exists r us k vs n, t = Node r us /\ sems us k = Some (vs, n) /\ asem r n vs = None /\ m = complaint r vs.

(** ** The same by tokens: what is wrong with a piece of text *)
Definition word (k : token) (s : bytes) : Prop := t_code k = TOK_IDENTIFIER /\ t_val k = TVStr s.
Definition quoted (k : token) (s : bytes) : Prop := t_code k = TOK_STRING /\ t_val k = TVStr s.
Definition has_token (c : Z) (l : list token) : Prop := exists k, In k l /\ t_code k = c.
(** [k] is the name of the CSV option [w]. *)
Definition names_option (w : bytes) (k : token) : Prop :=
  w = la "NULL" /\ t_code k = TOK_NULL \/ (w = la "DELIMITER" \/ w = la "QUOTE") /\ exists s, word k s /\ casecmp s w = true.
(** The CSV option [w] is given a value in [l]. *)
Definition sets_option (w : bytes) (l : list token) : Prop := exists l1 k v s l2, l = (l1 ++ k :: v :: l2)%list /\ names_option w k /\ quoted v s.
(** [l] declares the file type [s]. *)
Definition sets_format (s : bytes) (l : list token) : Prop := exists l1 f k l2, l = (l1 ++ f :: k :: l2)%list /\ t_code f = TOK_FORMAT /\ word k s.
(** NULL, without NOT before it. *)
Definition plain_null (l : list token) : Prop := exists l1 k l2, l = (l1 ++ k :: l2)%list /\ t_code k = TOK_NULL /\ forall l0 n, l1 = (l0 ++ [n])%list -> t_code n <> TOK_NOT.

Inductive faulty : list token -> bytes -> Prop :=
| f_date k1 k2 s : t_code k1 = TOK_DATE -> quoted k2 s -> scan_date s = false -> faulty [k1; k2] (la "Found incorrect date format. Expected format: YYYY-MM-DD")
| f_interval k1 k2 k3 s : t_code k1 = TOK_INTERVAL -> quoted k2 s -> (forall n u, scan_interval1 s <> SYes n u) -> faulty [k1; k2; k3] (la "Found incorrect interval format. Expected format: INTEGER")
| f_interval2 k1 k2 s : t_code k1 = TOK_INTERVAL -> quoted k2 s -> (forall n u, scan_interval2 s <> SYes n u) ->
    faulty [k1; k2] (la "Found incorrect interval format. Expected format: INTEGER INTERVAL_QUALIIFIER")
| f_unit k1 k2 s n u : t_code k1 = TOK_INTERVAL -> quoted k2 s -> scan_interval2 s = SYes n u -> unit_of u = None -> faulty [k1; k2] (la "Interval qualifier is unknown.")
| f_file k s : word k s -> (forall w, In w [la "csv"; la "tbl"; la "binary"; la "bin"] -> casecmp s w = false) -> faulty [k] (la "File type is unknown.")
| f_tbl l f k g p s : t_code f = TOK_FROM -> word k s -> t_code g = TOK_FILE -> t_code p = TOK_STRING -> casecmp s (la "tbl") = false -> faulty (l ++ [f; k; g; p]) (la "File type is unknown.")
| f_csv k v s x : word k s -> quoted v x -> casecmp s (la "DELIMITER") = false -> casecmp s (la "QUOTE") = false -> faulty [k; v] (la "Unknown CSV option.")
| f_nulls k1 k2 s1 s2 : word k1 s1 -> word k2 s2 -> ~ (casecmp s1 (la "nulls") = true /\ (casecmp s2 (la "first") = true \/ casecmp s2 (la "last") = true)) ->
    faulty [k1; k2] (la "Expected NULLS FIRST or NULLS LAST ordering.")
| f_param k : t_code k = bz "?"%char -> faulty [k] (la "Parameter ? is not a valid literal.")
| f_column k s l : word k s -> plain_null l -> has_token TOK_NOT l \/ has_token TOK_PRIMARY l -> faulty (k :: l) (la "Conflicting nullability constraints for " ++ s)
| f_format l s c f k s' : sets_format s l -> t_code c = bz ","%char -> t_code f = TOK_FORMAT -> word k s' -> faulty (l ++ [c; f; k]) (la "File type must only be provided once.")
| f_format_csv l w c f k s : sets_option w l -> t_code c = bz ","%char -> t_code f = TOK_FORMAT -> word k s -> casecmp s (la "csv") = false ->
    faulty (l ++ [c; f; k]) (la "CSV options (DELIMITER, NULL, QUOTE) are only allowed for CSV files.")
| f_encoding l c f k : has_token TOK_ENCODING l -> t_code c = bz ","%char -> t_code f = TOK_ENCODING -> t_code k = TOK_STRING -> faulty (l ++ [c; f; k]) (la "Encoding type must only be provided once.")
| f_option l w c k v s : sets_option w l -> t_code c = bz ","%char -> names_option w k -> quoted v s ->
    faulty (l ++ [c; k; v]) (la "CSV options (DELIMITER, NULL, QUOTE) cannot be provided more than once.")
| f_option_csv l w s0 c k v s : sets_format s0 l -> casecmp s0 (la "csv") = false -> t_code c = bz ","%char -> names_option w k -> quoted v s ->
    faulty (l ++ [c; k; v]) (la "CSV options (DELIMITER, NULL, QUOTE) are only allowed for CSV files.").
