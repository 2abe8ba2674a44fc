(** Specification: the keywords of the language with their token codes, and the names of the tokens in messages.  Independent of the
    scanner's and the parser's tables: the spellings are those of the documentation, the codes are the constants of the enumeration
    in bison_parser.h (TokenCodes.v). *)
From Verif Require Import Base TokenCodes.
From Coq Require Import String.
Local Open Scope Z_scope.

Definition keywords : list (bytes * Z) := map (fun p => (la (fst p), snd p)) [
  ("ADD", TOK_ADD); ("AFTER", TOK_AFTER); ("ALL", TOK_ALL); ("ALTER", TOK_ALTER); ("ANALYZE", TOK_ANALYZE); ("AND", TOK_AND); ("ARRAY", TOK_ARRAY); ("AS", TOK_AS);
  ("ASC", TOK_ASC); ("BEFORE", TOK_BEFORE); ("BEGIN", TOK_BEGIN); ("BETWEEN", TOK_BETWEEN); ("BIGINT", TOK_BIGINT); ("BOOLEAN", TOK_BOOLEAN); ("BY", TOK_BY);
  ("CALL", TOK_CALL); ("CASCADE", TOK_CASCADE); ("CASE", TOK_CASE); ("CAST", TOK_CAST); ("CHAR", TOK_CHAR); ("COLUMN", TOK_COLUMN); ("COLUMNS", TOK_COLUMNS);
  ("COMMIT", TOK_COMMIT); ("CONTROL", TOK_CONTROL); ("COPY", TOK_COPY); ("CREATE", TOK_CREATE); ("CROSS", TOK_CROSS); ("DATE", TOK_DATE); ("DATETIME", TOK_DATETIME);
  ("DAY", TOK_DAY); ("DAYS", TOK_DAYS); ("DEALLOCATE", TOK_DEALLOCATE); ("DECIMAL", TOK_DECIMAL); ("DEFAULT", TOK_DEFAULT); ("DELETE", TOK_DELETE); ("DELTA", TOK_DELTA);
  ("DESC", TOK_DESC); ("DESCRIBE", TOK_DESCRIBE); ("DIRECT", TOK_DIRECT); ("DISTINCT", TOK_DISTINCT); ("DOUBLE", TOK_DOUBLE); ("DROP", TOK_DROP); ("ELSE", TOK_ELSE);
  ("ENCODING", TOK_ENCODING); ("END", TOK_END); ("ESCAPE", TOK_ESCAPE); ("EXCEPT", TOK_EXCEPT); ("EXECUTE", TOK_EXECUTE); ("EXISTS", TOK_EXISTS);
  ("EXPLAIN", TOK_EXPLAIN); ("EXTRACT", TOK_EXTRACT); ("FALSE", TOK_FALSE); ("FILE", TOK_FILE); ("FLOAT", TOK_FLOAT); ("FOLLOWING", TOK_FOLLOWING); ("FOR", TOK_FOR);
  ("FOREIGN", TOK_FOREIGN); ("FORMAT", TOK_FORMAT); ("FROM", TOK_FROM); ("FULL", TOK_FULL); ("GLOBAL", TOK_GLOBAL); ("GROUP", TOK_GROUP); ("GROUPS", TOK_GROUPS);
  ("HASH", TOK_HASH); ("HAVING", TOK_HAVING); ("HINT", TOK_HINT); ("HOUR", TOK_HOUR); ("HOURS", TOK_HOURS); ("IF", TOK_IF); ("ILIKE", TOK_ILIKE); ("IMPORT", TOK_IMPORT);
  ("IN", TOK_IN); ("INDEX", TOK_INDEX); ("INNER", TOK_INNER); ("INSERT", TOK_INSERT); ("INT", TOK_INT); ("INTEGER", TOK_INTEGER); ("INTERSECT", TOK_INTERSECT);
  ("INTERVAL", TOK_INTERVAL); ("INTO", TOK_INTO); ("IS", TOK_IS); ("ISNULL", TOK_ISNULL); ("JOIN", TOK_JOIN); ("KEY", TOK_KEY); ("LEFT", TOK_LEFT); ("LIKE", TOK_LIKE);
  ("LIMIT", TOK_LIMIT); ("LOAD", TOK_LOAD); ("LOCAL", TOK_LOCAL); ("LOCKED", TOK_LOCKED); ("LONG", TOK_LONG); ("MERGE", TOK_MERGE); ("MINUS", TOK_MINUS);
  ("MINUTE", TOK_MINUTE); ("MINUTES", TOK_MINUTES); ("MONTH", TOK_MONTH); ("MONTHS", TOK_MONTHS); ("NATURAL", TOK_NATURAL); ("NO", TOK_NO); ("NOT", TOK_NOT);
  ("NOWAIT", TOK_NOWAIT); ("NULL", TOK_NULL); ("NVARCHAR", TOK_NVARCHAR); ("OF", TOK_OF); ("OFF", TOK_OFF); ("OFFSET", TOK_OFFSET); ("ON", TOK_ON); ("OR", TOK_OR);
  ("ORDER", TOK_ORDER); ("OUTER", TOK_OUTER); ("OVER", TOK_OVER); ("PARAMETERS", TOK_PARAMETERS); ("PARTITION", TOK_PARTITION); ("PLAN", TOK_PLAN);
  ("PRECEDING", TOK_PRECEDING); ("PREPARE", TOK_PREPARE); ("PRIMARY", TOK_PRIMARY); ("RANGE", TOK_RANGE); ("REAL", TOK_REAL); ("REFERENCES", TOK_REFERENCES);
  ("RENAME", TOK_RENAME); ("RESTRICT", TOK_RESTRICT); ("RIGHT", TOK_RIGHT); ("ROLLBACK", TOK_ROLLBACK); ("ROWS", TOK_ROWS); ("SCHEMA", TOK_SCHEMA);
  ("SCHEMAS", TOK_SCHEMAS); ("SECOND", TOK_SECOND); ("SECONDS", TOK_SECONDS); ("SELECT", TOK_SELECT); ("SET", TOK_SET); ("SHARE", TOK_SHARE); ("SHOW", TOK_SHOW);
  ("SKIP", TOK_SKIP); ("SMALLINT", TOK_SMALLINT); ("SORTED", TOK_SORTED); ("SPATIAL", TOK_SPATIAL); ("TABLE", TOK_TABLE); ("TABLES", TOK_TABLES);
  ("TEMPORARY", TOK_TEMPORARY); ("TEXT", TOK_TEXT); ("THEN", TOK_THEN); ("TIME", TOK_TIME); ("TIMESTAMP", TOK_TIMESTAMP); ("TO", TOK_TO); ("TOP", TOK_TOP);
  ("TRANSACTION", TOK_TRANSACTION); ("TRUE", TOK_TRUE); ("TRUNCATE", TOK_TRUNCATE); ("UNBOUNDED", TOK_UNBOUNDED); ("UNION", TOK_UNION); ("UNIQUE", TOK_UNIQUE);
  ("UNLOAD", TOK_UNLOAD); ("UPDATE", TOK_UPDATE); ("USING", TOK_USING); ("VALUES", TOK_VALUES); ("VARCHAR", TOK_VARCHAR); ("VIEW", TOK_VIEW); ("VIRTUAL", TOK_VIRTUAL);
  ("WHEN", TOK_WHEN); ("WHERE", TOK_WHERE); ("WITH", TOK_WITH); ("YEAR", TOK_YEAR); ("YEARS", TOK_YEARS)]%string.
(** The tokens with a value, and the other tokens of more than one character. *)
Definition named_tokens : list (bytes * Z) := map (fun p => (la (fst p), snd p))
  [("IDENTIFIER", TOK_IDENTIFIER); ("STRING", TOK_STRING); ("FLOATVAL", TOK_FLOATVAL); ("INTVAL", TOK_INTVAL); ("CHARACTER_VARYING", TOK_CHARACTER_VARYING);
   ("CURRENT_ROW", TOK_CURRENT_ROW); ("EQUALS", TOK_EQUALS); ("NOTEQUALS", TOK_NOTEQUALS); ("LESSEQ", TOK_LESSEQ); ("GREATEREQ", TOK_GREATEREQ); ("CONCAT", TOK_CONCAT);
   ("LESS", TOK_LESS); ("GREATER", TOK_GREATER); ("NOTNULL", TOK_NOTNULL); ("UMINUS", TOK_UMINUS); (* declared in the grammar, never scanned *)
   ("error", 256) (* reserved by bison, never scanned *)]%string.
(** Characters which are tokens of the grammar. *)
Definition punctuation : bytes := la "=<>+-*/%^[]().;,?".
Definition lookup_name (c : Z) (l : list (bytes * Z)) : option bytes := match find (fun p => snd p =? c) l with Some p => Some (fst p) | None => None end.
(** How a message calls the token with code [c]: a keyword by itself, a character in quotes, the end of the input $end, anything which is not
    in the grammar $undefined. *)
Definition shown (c : Z) : bytes :=
  if c <=? 0 then la "$end"
  else match lookup_name c keywords with
  | Some k => k
  | None => match lookup_name c named_tokens with
    | Some k => k
    | None => match find (fun x => bz x =? c) punctuation with Some x => la "'" ++ [x] ++ la "'" | None => la "$undefined" end
    end
  end.
