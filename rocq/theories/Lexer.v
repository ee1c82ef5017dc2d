(** Model of the lexer rules of treeno/grammar/SqlBase.g4 (858-1219): longest
    match, first rule wins on ties, white space and comments are dropped
    (hidden channel).  The ANTLR run time itself is trusted to implement this. *)
From Coq Require Import String Ascii List Arith NArith Bool.
From Verif Require Import PyStr.
Import ListNotations.
Open Scope string_scope.

(** A token keeps the text it was read from ([getText()]).
    [TKw k txt]: keyword, [k] its upper-case spelling, [txt] the text read. *)
Inductive token :=
| TKw (k txt : string)
| TId (txt : string)
| TDigitId (txt : string)
| TQuoted (txt : string)
| TBack (txt : string)
| TString (txt : string)
| TUniString (txt : string)
| TBinary (txt : string)
| TInt (txt : string)
| TDec (txt : string)
| TDbl (txt : string)
| TSym (s : string)
| TUnrec (c : ascii).

(** SqlBase.g4 860-1128: keywords with an upper-case and a lower-case form. *)
Definition keywords : list string :=
  ["ABSENT"; "ADD"; "ADMIN"; "AFTER"; "ALL"; "ALTER"; "ANALYZE"; "AND"; "ANY";
   "ARRAY"; "AS"; "ASC"; "AT"; "AUTHORIZATION"; "BERNOULLI"; "BETWEEN"; "BOTH";
   "BY"; "CALL"; "CASCADE"; "CASE"; "CAST"; "CATALOGS"; "COLUMN"; "COLUMNS";
   "COMMENT"; "COMMIT"; "COMMITTED"; "CONDITIONAL"; "CONSTRAINT"; "COUNT";
   "COPARTITION"; "CREATE"; "CROSS"; "CUBE"; "CURRENT"; "CURRENT_CATALOG";
   "CURRENT_DATE"; "CURRENT_PATH"; "CURRENT_ROLE"; "CURRENT_SCHEMA";
   "CURRENT_TIME"; "CURRENT_TIMESTAMP"; "CURRENT_USER"; "DATA"; "DATE"; "DAY";
   "DEALLOCATE"; "DEFAULT"; "DEFINER"; "DELETE"; "DENY"; "DESC"; "DESCRIBE";
   "DESCRIPTOR"; "DEFINE"; "DISTINCT"; "DISTRIBUTED"; "DOUBLE"; "DROP"; "ELSE";
   "EMPTY"; "ENCODING"; "END"; "ERROR"; "ESCAPE"; "EXCEPT"; "EXCLUDING";
   "EXECUTE"; "EXISTS"; "EXPLAIN"; "EXTRACT"; "FALSE"; "FETCH"; "FILTER";
   "FINAL"; "FIRST"; "FOLLOWING"; "FOR"; "FORMAT"; "FROM"; "FULL"; "FUNCTIONS";
   "GRANT"; "GRANTED"; "GRANTS"; "GRAPHVIZ"; "GROUP"; "GROUPING"; "GROUPS";
   "HAVING"; "HOUR"; "IF"; "IGNORE"; "IN"; "INCLUDING"; "INITIAL"; "INNER";
   "INPUT"; "INSERT"; "INTERSECT"; "INTERVAL"; "INTO"; "INVOKER"; "IO"; "IS";
   "ISOLATION"; "JOIN"; "JSON"; "JSON_ARRAY"; "JSON_EXISTS"; "JSON_OBJECT";
   "JSON_QUERY"; "JSON_VALUE"; "KEEP"; "KEY"; "KEYS"; "LAST"; "LATERAL";
   "LEADING"; "LEFT"; "LEVEL"; "LIKE"; "LIMIT"; "LISTAGG"; "LOCAL";
   "LOCALTIME"; "LOCALTIMESTAMP"; "LOGICAL"; "MAP"; "MATCH"; "MATCHED";
   "MATCHES"; "MATCH_RECOGNIZE"; "MATERIALIZED"; "MEASURES"; "MERGE"; "MINUTE";
   "MONTH"; "NATURAL"; "NEXT"; "NO"; "NONE"; "NORMALIZE"; "NOT"; "NULL";
   "NULLIF"; "NULLS"; "OBJECT"; "OFFSET"; "OMIT"; "OF"; "ON"; "ONE"; "ONLY";
   "OPTION"; "OR"; "ORDER"; "ORDINALITY"; "OUTER"; "OUTPUT"; "OVER";
   "OVERFLOW"; "PARTITION"; "PARTITIONS"; "PASSING"; "PAST"; "PATH"; "PATTERN";
   "PER"; "PERMUTE"; "POSITION"; "PRECEDING"; "PRECISION"; "PREPARE";
   "PRIVILEGES"; "PROPERTIES"; "PRUNE"; "QUOTES"; "RANGE"; "READ"; "RECURSIVE";
   "REFRESH"; "RENAME"; "REPEATABLE"; "REPLACE"; "RESET"; "RESPECT"; "RESTRICT";
   "RETURNING"; "REVOKE"; "RIGHT"; "ROLE"; "ROLES"; "ROLLBACK"; "ROLLUP"; "ROW";
   "ROWS"; "RUNNING"; "SCALAR"; "SCHEMA"; "SCHEMAS"; "SECOND"; "SECURITY";
   "SEEK"; "SELECT"; "SERIALIZABLE"; "SESSION"; "SET"; "SETS"; "SHOW"; "SOME";
   "START"; "STATS"; "SUBSET"; "SUBSTRING"; "SYSTEM"; "TABLE"; "TABLES";
   "TABLESAMPLE"; "TEXT"; "THEN"; "TIES"; "TIME"; "TIMESTAMP"; "TO"; "TRAILING";
   "TRANSACTION"; "TRIM"; "TRUE"; "TRUNCATE"; "TRY_CAST"; "TYPE"; "UESCAPE";
   "UNBOUNDED"; "UNCOMMITTED"; "UNCONDITIONAL"; "UNION"; "UNIQUE"; "UNKNOWN";
   "UNMATCHED"; "UNNEST"; "UPDATE"; "USE"; "USER"; "USING"; "VALIDATE"; "VALUE";
   "VALUES"; "VERBOSE"; "VERSION"; "VIEW"; "WHEN"; "WHERE"; "WINDOW"; "WITH";
   "WITHIN"; "WITHOUT"; "WORK"; "WRAPPER"; "WRITE"; "YEAR"; "ZONE"].
(** Upper-case only: 'NFC' .. 'UTF8', TEXT_STRING: 'STRING', and the implicit
    token 'SKIP'. *)
Definition upper_keywords : list string :=
  ["NFC"; "NFD"; "NFKC"; "NFKD"; "STRING"; "UTF16"; "UTF32"; "UTF8"; "SKIP"].

(** SqlBase.g4 828-856 [nonReserved]. *)
Definition non_reserved : list string :=
  ["ABSENT"; "ADD"; "ADMIN"; "AFTER"; "ALL"; "ANALYZE"; "ANY"; "ARRAY"; "ASC";
   "AT"; "AUTHORIZATION"; "BERNOULLI"; "BOTH"; "CALL"; "CASCADE"; "CATALOGS";
   "COLUMN"; "COLUMNS"; "COMMENT"; "COMMIT"; "COMMITTED"; "CONDITIONAL";
   "COPARTITION"; "COUNT"; "CURRENT"; "DATA"; "DATE"; "DAY"; "DEFAULT";
   "DEFINE"; "DEFINER"; "DESC"; "DESCRIPTOR"; "DISTRIBUTED"; "DOUBLE"; "EMPTY";
   "ENCODING"; "ERROR"; "EXCLUDING"; "EXPLAIN"; "FETCH"; "FILTER"; "FINAL";
   "FIRST"; "FOLLOWING"; "FORMAT"; "FUNCTIONS"; "GRANT"; "DENY"; "GRANTED";
   "GRANTS"; "GRAPHVIZ"; "GROUPS"; "HOUR"; "IF"; "IGNORE"; "INCLUDING";
   "INITIAL"; "INPUT"; "INTERVAL"; "INVOKER"; "IO"; "ISOLATION"; "JSON"; "KEEP";
   "KEY"; "KEYS"; "LAST"; "LATERAL"; "LEADING"; "LEVEL"; "LIMIT"; "LOCAL";
   "LOGICAL"; "MAP"; "MATCH"; "MATCHED"; "MATCHES"; "MATCH_RECOGNIZE";
   "MATERIALIZED"; "MEASURES"; "MERGE"; "MINUTE"; "MONTH"; "NEXT"; "NFC"; "NFD";
   "NFKC"; "NFKD"; "NO"; "NONE"; "NULLIF"; "NULLS"; "OBJECT"; "OF"; "OFFSET";
   "OMIT"; "ONE"; "ONLY"; "OPTION"; "ORDINALITY"; "OUTPUT"; "OVER"; "OVERFLOW";
   "PARTITION"; "PARTITIONS"; "PASSING"; "PAST"; "PATH"; "PATTERN"; "PER";
   "PERMUTE"; "POSITION"; "PRECEDING"; "PRECISION"; "PRIVILEGES"; "PROPERTIES";
   "PRUNE"; "QUOTES"; "RANGE"; "READ"; "REFRESH"; "RENAME"; "REPEATABLE";
   "REPLACE"; "RESET"; "RESPECT"; "RESTRICT"; "RETURNING"; "REVOKE"; "ROLE";
   "ROLES"; "ROLLBACK"; "ROW"; "ROWS"; "RUNNING"; "SCALAR"; "SCHEMA"; "SCHEMAS";
   "SECOND"; "SECURITY"; "SEEK"; "SERIALIZABLE"; "SESSION"; "SET"; "SETS";
   "SHOW"; "SOME"; "START"; "STATS"; "SUBSET"; "SUBSTRING"; "SYSTEM"; "TABLES";
   "TABLESAMPLE"; "TEXT"; "STRING"; "TIES"; "TIME"; "TIMESTAMP"; "TO";
   "TRAILING"; "TRANSACTION"; "TRUNCATE"; "TRY_CAST"; "TYPE"; "UNBOUNDED";
   "UNCOMMITTED"; "UNCONDITIONAL"; "UNIQUE"; "UNKNOWN"; "UNMATCHED"; "UPDATE";
   "USE"; "USER"; "UTF16"; "UTF32"; "UTF8"; "VALIDATE"; "VALUE"; "VERBOSE";
   "VERSION"; "VIEW"; "WINDOW"; "WITHIN"; "WITHOUT"; "WORK"; "WRAPPER"; "WRITE";
   "YEAR"; "ZONE"].

(** Longest prefix whose characters satisfy [f], and the rest. *)
Fixpoint span (f : ascii -> bool) (s : string) : string * string :=
  match s with
  | "" => ("", "")
  | String c s' =>
      if f c then let '(a, b) := span f s' in (String c a, b) else ("", s)
  end.

(** A word: keyword if spelled all upper or all lower case, else identifier
    (the keyword rules come before IDENTIFIER). *)
Definition word_token (w : string) : token :=
  if mem w keywords then TKw w w
  else if mem w upper_keywords then TKw w w
  else if (mem (upper w) keywords && String.eqb w (lower w))%bool then TKw (upper w) w
  else TId w.

(** Body of STRING / QUOTED_IDENTIFIER / BACKQUOTED_IDENTIFIER after the opening
    quote [q]: longest prefix of the form ( ~q | qq )* q.  Returns the text read
    (with the closing quote) and the rest; [None] if there is no closing quote. *)
Fixpoint scan_quoted (q : ascii) (s : string) : option (string * string) :=
  match s with
  | "" => None
  | String c s' =>
      if Ascii.eqb c q then
        match s' with
        | String d s'' =>
            if Ascii.eqb d q then
              match scan_quoted q s'' with
              | Some (t, r) => Some (String c (String d t), r)
              | None => Some (String c "", s')
              end
            else Some (String c "", s')
        | "" => Some (String c "", s')
        end
      else match scan_quoted q s' with
           | Some (t, r) => Some (String c t, r)
           | None => None
           end
  end.

(** BINARY_LITERAL body: (~')* ' . *)
Fixpoint scan_binary (s : string) : option (string * string) :=
  match s with
  | "" => None
  | String c s' =>
      if Ascii.eqb c squote then Some (String c "", s')
      else match scan_binary s' with
           | Some (t, r) => Some (String c t, r)
           | None => None
           end
  end.

(** EXPONENT: 'E' [+-]? DIGIT+ (upper-case E only). *)
Definition scan_exponent (s : string) : option (string * string) :=
  match s with
  | String c s' =>
      if Ascii.eqb c "E" then
        let '(sg, s2) :=
          match s' with
          | String d s'' => if (Ascii.eqb d "+" || Ascii.eqb d "-")%bool
                            then (String d "", s'') else ("", s')
          | "" => ("", s')
          end in
        let '(ds, r) := span is_digit s2 in
        match ds with
        | "" => None
        | _ => Some (String c (sg ++ ds), r)
        end
      else None
  | "" => None
  end.

(** A token starting with a digit: INTEGER_VALUE, DECIMAL_VALUE, DOUBLE_VALUE,
    DIGIT_IDENTIFIER; the longest wins, the earlier rule on ties. *)
Definition number_token (s : string) : token * string :=
  let '(ds, r) := span is_digit s in
  let '(num, nr) :=
    match r with
    | String c r1 =>
        if Ascii.eqb c "." then
          let '(fs, r2) := span is_digit r1 in
          match scan_exponent r2 with
          | Some (e, r3) => (TDbl (ds ++ "." ++ fs ++ e), r3)
          | None => (TDec (ds ++ "." ++ fs), r2)
          end
        else match scan_exponent r with
             | Some (e, r3) => (TDbl (ds ++ e), r3)
             | None => (TInt ds, r)
             end
    | "" => (TInt ds, r)
    end in
  let '(w, wr) := span is_word s in
  if Nat.ltb (String.length wr) (String.length nr)
  then (TDigitId w, wr) else (num, nr).

(** BRACKETED_COMMENT after the opening: up to the first closing. *)
Fixpoint skip_comment (s : string) : option string :=
  match s with
  | "" => None
  | String c s' =>
      match s' with
      | String d s'' =>
          if (Ascii.eqb c "*" && Ascii.eqb d "/")%bool then Some s'' else skip_comment s'
      | "" => None
      end
  end.

(** SIMPLE_COMMENT after '--'. *)
Fixpoint skip_line (s : string) : string :=
  match s with
  | "" => ""
  | String c s' =>
      if N.eqb (code c) 10 then s'
      else if N.eqb (code c) 13 then
        match s' with
        | String d s'' => if N.eqb (code d) 10 then s'' else s'
        | "" => ""
        end
      else skip_line s'
  end.

(** WS: blank, CR, LF, TAB. *)
Definition is_ws (c : ascii) : bool :=
  (N.eqb (code c) 32 || N.eqb (code c) 10 || N.eqb (code c) 13 || N.eqb (code c) 9)%bool.

Definition one_char_syms : list ascii :=
  ["("; ")"; ","; "["; "]"; ":"; "^"; "$"; "}"; "+"; "*"; "%"; "?"]%char.

(** One step: the token (if not hidden) at the head of a non-empty text, and
    the remaining text. *)
Definition next_token (c : ascii) (s' : string) : option token * string :=
  let s := String c s' in
  if is_ws c then (None, s')
  else if Ascii.eqb c squote then
    match scan_quoted squote s' with
    | Some (t, r) => (Some (TString (String c t)), r)
    | None => (Some (TUnrec c), s')
    end
  else if Ascii.eqb c dquote then
    match scan_quoted dquote s' with
    | Some (t, r) => (Some (TQuoted (String c t)), r)
    | None => (Some (TUnrec c), s')
    end
  else if Ascii.eqb c "`" then
    match scan_quoted "`" s' with
    | Some (t, r) => (Some (TBack (String c t)), r)
    | None => (Some (TUnrec c), s')
    end
  else if is_digit c then let '(t, r) := number_token s in (Some t, r)
  else if (is_letter c || Ascii.eqb c "_")%bool then
    let '(w, r) := span is_word s in
    let word := (Some (word_token w), r) in
    if String.eqb w "U" then
      match r with
      | String a (String b r') =>
          if (Ascii.eqb a "&" && Ascii.eqb b squote)%bool then
            match scan_quoted squote r' with
            | Some (t, r2) => (Some (TUniString ("U&'" ++ t)), r2)
            | None => word
            end
          else word
      | _ => word
      end
    else if String.eqb w "X" then
      match r with
      | String a r' =>
          if Ascii.eqb a squote then
            match scan_binary r' with
            | Some (t, r2) => (Some (TBinary ("X'" ++ t)), r2)
            | None => word
            end
          else word
      | _ => word
      end
    else word
  else if existsb (Ascii.eqb c) one_char_syms then (Some (TSym (String c "")), s')
  else
    let next := match s' with String d _ => Some d | "" => None end in
    let next_is (d : ascii) := match next with Some x => Ascii.eqb x d | None => false end in
    let rest2 := match s' with String _ r => r | "" => "" end in
    if Ascii.eqb c "." then
      match s' with
      | String d _ =>
          if is_digit d then
            let '(fs, r) := span is_digit s' in
            match scan_exponent r with
            | Some (e, r') => (Some (TDbl ("." ++ fs ++ e)), r')
            | None => (Some (TDec ("." ++ fs)), r)
            end
          else (Some (TSym "."), s')
      | "" => (Some (TSym "."), s')
      end
    else if Ascii.eqb c "-" then
      if next_is "-"%char then (None, skip_line rest2)
      else if next_is ">"%char then (Some (TSym "->"), rest2)
      else if next_is "}"%char then (Some (TSym "-}"), rest2)
      else (Some (TSym "-"), s')
    else if Ascii.eqb c "/" then
      if next_is "*"%char then
        match skip_comment rest2 with
        | Some r => (None, r)
        | None => (Some (TSym "/"), s')
        end
      else (Some (TSym "/"), s')
    else if Ascii.eqb c "<" then
      if next_is "="%char then (Some (TSym "<="), rest2)
      else if next_is ">"%char then (Some (TSym "<>"), rest2)
      else (Some (TSym "<"), s')
    else if Ascii.eqb c ">" then
      if next_is "="%char then (Some (TSym ">="), rest2) else (Some (TSym ">"), s')
    else if Ascii.eqb c "=" then
      if next_is ">"%char then (Some (TSym "=>"), rest2) else (Some (TSym "="), s')
    else if Ascii.eqb c "!" then
      if next_is "="%char then (Some (TSym "!="), rest2) else (Some (TUnrec c), s')
    else if Ascii.eqb c "|" then
      if next_is "|"%char then (Some (TSym "||"), rest2) else (Some (TSym "|"), s')
    else if Ascii.eqb c "{" then
      if next_is "-"%char then (Some (TSym "{-"), rest2) else (Some (TSym "{"), s')
    else (Some (TUnrec c), s').

Fixpoint lex_fuel (fuel : nat) (s : string) : list token :=
  match fuel with
  | O => []
  | S f =>
      match s with
      | "" => []
      | String c s' =>
          match next_token c s' with
          | (Some t, r) => t :: lex_fuel f r
          | (None, r) => lex_fuel f r
          end
      end
  end.

(** The token list of a text (every step consumes at least one character). *)
Definition lex (s : string) : list token := lex_fuel (String.length s) s.
