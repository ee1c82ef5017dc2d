(** A grammar of the language, written as rules: which sequences of tokens mean
    which objects.  It is stated without the parser.  Each rule is an alternative
    of the grammar together with what the converter makes of it (the lines of
    treeno/grammar/SqlBase.g4 and treeno/builder/convert.py are given).  Names are
    plain words ([TId]) and reserved keywords are in capitals; texts that only
    differ from this by quoted names or by the letters' case have the same meaning
    (Spelling.v).  Keywords that may serve as names come in any spelling. *)
From Coq Require Import String Ascii List ZArith NArith Bool.
From Verif Require Import PyStr Types Inference Lexer LexFacts TypeParser TypeRoundTrip Functions Ast Sql Parser Tokens.
Import ListNotations.
Open Scope nat_scope.
Open Scope string_scope.
Open Scope list_scope.

(** * Words *)
(** A keyword in some spelling. *)
Definition word (k : string) (t : token) : Prop := exists x, t = TKw k x.
(** The direction and the place of NULLs. *)
Inductive direction : bool -> list token -> Prop :=
| dir_none : direction false []
| dir_asc t : word "ASC" t -> direction false [t]
| dir_desc t : word "DESC" t -> direction true [t].
Inductive nulls : bool -> list token -> Prop :=
| nulls_none : nulls false []
| nulls_first t u : word "NULLS" t -> word "FIRST" u -> nulls true [t; u]
| nulls_last t u : word "NULLS" t -> word "LAST" u -> nulls false [t; u].
Definition side (d : bool) : string := if d then "FOLLOWING" else "PRECEDING".
Inductive parent : option string -> list token -> Prop :=
| parent_none : parent None []
| parent_some n : parent (Some n) [TId n].
(** The treatment of NULLs: whether they are ignored. *)
Inductive treatment : option bool -> list token -> Prop :=
| tr_none : treatment None []
| tr_ignore t u : word "IGNORE" t -> word "NULLS" u -> treatment (Some true) [t; u]
| tr_respect t u : word "RESPECT" t -> word "NULLS" u -> treatment (Some false) [t; u].
Definition ignores (o : option bool) : bool := match o with Some b => b | None => false end.
(** A word by which functions are called. *)
Definition call_words := ["COUNT"; "MERGE"; "IF"; "NULLIF"; "DATE"; "REPLACE"].
Definition call_word (t : token) (n : string) : Prop :=
  t = TId n \/ exists k, t = TKw k n /\ mem k call_words = true.
(** The arguments: what the parentheses contain before ORDER BY. *)
Definition quantifier (ts : list token) : Prop :=
  ts = [] \/ exists t, (word "DISTINCT" t \/ word "ALL" t) /\ ts = [t].
(** from_args swaps the last two of three arguments of APPROX_PERCENTILE. *)
Definition arranged (f : fn) (l : list node) : list node :=
  match f, l with
  | FApproxPercentile, [v; w; p] => [v; p; w]
  | _, _ => l
  end.
(** A star as the argument. *)
Inductive star : tref node -> list token -> Prop :=
| star_all : star TRNone [TSym "*"]
| star_of n : star (TRStr n) [TId n; TSym "."; TSym "*"].
(** A plain word, or a keyword that may be a name. *)
Definition name_word (t : token) : Prop :=
  (exists n, t = TId n) \/ exists k x, t = TKw k x /\ mem k non_reserved = true.
(** The words in TRIM; without one, the text does not start with one. *)
Definition trim_words := ["LEADING"; "TRAILING"; "BOTH"].
Definition no_trim_word (ts : list token) : bool :=
  match ts with TKw k _ :: _ => negb (mem k trim_words) | _ => true end.
Inductive trim_spec : list token -> list token -> Prop :=
| trim_none ts : no_trim_word ts = true -> trim_spec [] ts
| trim_word k x ts : mem k trim_words = true -> trim_spec [TKw k x] ts.
Definition no_with_word (ts : list token) : bool :=
  match ts with TKw k _ :: _ => negb (String.eqb k "WITH") | _ => true end.
(** A type in one of its spellings. *)
Inductive type_text (t : dtype) : list token -> Prop :=
| type_upper : type_text t (type_toks false t)
| type_lower : interval_free t = true -> type_text t (type_toks true t).
(** Intervals: the sign, then the text in quotes, then the fields. *)
Inductive sign : bool -> list token -> Prop :=
| sign_none : sign false []
| sign_plus : sign false [TSym "+"]
| sign_minus : sign true [TSym "-"].
Definition field_word (t : token) (f : string) : Prop :=
  exists k, t = TKw k f /\ mem k interval_fields = true.
Inductive upto : option string -> list token -> Prop :=
| upto_none : upto None []
| upto_some t u f : word "TO" t -> field_word u f -> upto (Some f) [t; u].
Definition signed_text (minus : bool) (v : string) : string :=
  let v := if starts "+"%char v then lstrip "+"%char v else v in
  if minus then (if starts "-"%char v then lstrip "-"%char v else ("-" ++ v)%string) else v.
(** NORMALIZE, whose second argument is not kept. *)
Definition norm_forms := ["NFD"; "NFC"; "NFKD"; "NFKC"].
(** The number that decimal digits denote. *)
Fixpoint digits (acc : N) (s : string) : N :=
  match s with
  | "" => acc
  | String c s => digits (10 * acc + (N_of_ascii c - 48)) s
  end.
Definition int_type (z : Z) : dtype :=
  if ((- 2 ^ 31 <=? z) && (z <? 2 ^ 31))%Z then TSimple SInteger else TSimple SBigint.
Definition decimal_of (neg : bool) (a b : string) : dec := mkDec neg (digits 0 (a ++ b)) (- zlen b).
Inductive separator : string -> list token -> Prop :=
| sepr_none : separator " " []
| sepr_some s : separator (strip squote s) [TSym ","; TString s].
Inductive filler : string -> list token -> Prop :=
| fill_none : filler "..." []
| fill_some s : filler (strip squote s) [TString s].
Inductive counted : bool -> token -> Prop :=
| cnt_with t : word "WITH" t -> counted true t
| cnt_without t : word "WITHOUT" t -> counted false t.
Inductive overflow : option (bool * string) -> list token -> Prop :=
| over_none : overflow None []
| over_error u v : word "OVERFLOW" u -> word "ERROR" v -> overflow None [K "ON"; u; v]
| over_trunc u v f tf c tc w : word "OVERFLOW" u -> word "TRUNCATE" v -> filler f tf -> counted c tc -> word "COUNT" w ->
    overflow (Some (c, f)) (K "ON" :: u :: v :: tf ++ [tc; w]).
(** [AS? identifier] *)
Inductive alias : string -> list token -> Prop :=
| alias_bare a : alias a [TId a]
| alias_as a : alias a [K "AS"; TId a].
(** The quantifier: whether it is DISTINCT. *)
Inductive quantity : bool -> list token -> Prop :=
| qty_none : quantity false []
| qty_all : quantity false [TKw "ALL" "ALL"]
| qty_distinct : quantity true [K "DISTINCT"].
Definition dotted (l : list string) : list token := tjoin [TSym "."] (map (fun n => [TId n]) l).
(** The last of the names is the table, the ones before are its schema and its
    catalog; further ones are dropped.  Between others, the schema may not be empty. *)
Inductive table_name : list string -> node -> Prop :=
| name_table n : table_name [n] (NTable n None None)
| name_schema s n : table_name [s; n] (NTable n (Some s) None)
| name_catalog l c s n : s <> "" -> table_name (l ++ [c; s; n]) (NTable n (Some s) (Some c)).
Inductive ordinality : bool -> list token -> Prop :=
| ord_none : ordinality false []
| ord_with t : word "ORDINALITY" t -> ordinality true [K "WITH"; t].
Inductive outer : list token -> Prop :=
| outer_none : outer []
| outer_word : outer [K "OUTER"].
Inductive join_words : join_type -> list token -> Prop :=
| jw_plain : join_words JInner []
| jw_inner : join_words JInner [K "INNER"]
| jw_left o : outer o -> join_words JLeft (K "LEFT" :: o)
| jw_right o : outer o -> join_words JRight (K "RIGHT" :: o)
| jw_full o : outer o -> join_words JOuter (K "FULL" :: o).
(** The words of a join without criteria. *)
Inductive plain_words : join_type -> bool -> list token -> Prop :=
| pw_cross : plain_words JCross false [K "CROSS"]
| pw_natural jt tj : join_words jt tj -> plain_words jt true (K "NATURAL" :: tj).
Definition op_text (op : set_op) : string :=
  match op with OpIntersect => "INTERSECT" | OpUnion => "UNION" | OpExcept => "EXCEPT" end.
Definition op_tight (op : set_op) : nat := match op with OpIntersect => 2 | _ => 1 end.
Inductive set_quantity : bool -> list token -> Prop :=
| sq_none : set_quantity true []
| sq_all : set_quantity false [TKw "ALL" "ALL"]
| sq_distinct : set_quantity true [K "DISTINCT"].
Definition number (s : string) : Z := Z.of_N (digits 0 s).
Inductive row_word : list token -> Prop :=
| row_one t : word "ROW" t -> row_word [t]
| row_many t : word "ROWS" t -> row_word [t].
Inductive offset_text : option Z -> list token -> Prop :=
| off_none : offset_text None []
| off_some t s rw : word "OFFSET" t -> rw = [] \/ row_word rw -> offset_text (Some (number s)) (t :: TInt s :: rw).
Inductive limit_text : option Z -> list token -> Prop :=
| lim_none : limit_text None []
| lim_some t s : word "LIMIT" t -> limit_text (Some (number s)) [t; TInt s]
| lim_all t : word "LIMIT" t -> limit_text None [t; TKw "ALL" "ALL"]
| lim_only t u n rw v : word "FETCH" t -> word "FIRST" u \/ word "NEXT" u -> n = [] \/ (exists s, n = [TInt s]) ->
    row_word rw -> word "ONLY" v -> limit_text None (t :: u :: n ++ rw ++ [v])
| lim_ties t u n rw v : word "FETCH" t -> word "FIRST" u \/ word "NEXT" u -> n = [] \/ (exists s, n = [TInt s]) ->
    row_word rw -> word "TIES" v -> limit_text None (t :: u :: n ++ rw ++ [K "WITH"; v]).

(** * Phrases *)
(** Names with commas between them. *)
Definition names (l : list string) : list token := commas (map (fun n => [TId n]) l).
(** Names of columns in parentheses, if there are any. *)
Definition columns (l : list string) : list token := match l with [] => [] | _ => paren (names l) end.
Definition negated (neg : bool) (e : node) : node := if neg then NUn UNot e else e.
Definition not_word (neg : bool) : list token := if neg then [K "NOT"] else [].
(** The constructor accepts its arguments, and the result has a type
    (expression.py 79-162). *)
Definition value (e : node) : Prop := exists t, check e = Ok (Some t).
(** The constructor accepts its arguments. *)
Definition constructs (e : node) : Prop := exists t, check e = Ok t.
(** Not starting with a number, a parenthesis, a symbol. *)
Definition no_number (ts : list token) : bool :=
  match ts with (TInt _ | TDec _ | TDbl _) :: _ => false | _ => true end.
Definition no_bracket (ts : list token) : bool :=
  match ts with TSym s :: _ => negb (String.eqb s "(") | _ => true end.
Definition no_symbol (ts : list token) : bool := match ts with TSym _ :: _ => false | _ => true end.
(** A word in front of a string: a plain one, or a keyword that may be a name. *)
Definition ctor_name (t : token) (n : string) : Prop :=
  t = TId n \/ exists k, t = TKw k n /\ mem k ["DATE"; "DOUBLE"; "JSON"; "TIME"; "TIMESTAMP"; "UNKNOWN"] = true.
Definition clocks : list fn := [FCurrentTime; FCurrentTimestamp; FLocalTime; FLocalTimestamp].
(** A window that only has a name. *)
Definition named_window (p : string) : window node :=
  mkWindow (Some p) [] [] FTRange (BUnbounded false) BCurrent.

(** A query with its WITH, ORDER BY, OFFSET and LIMIT. *)
Definition dressed (a : qattrs node) (q : node) : node :=
  match q with
  | NSelect l fr wh gb hv d ws _ => NSelect l fr wh gb hv d ws a
  | NTableQuery t _ => NTableQuery t a
  | NValues l _ => NValues l a
  | NSetQuery op l r d _ => NSetQuery op l r d a
  | _ => q
  end.

(** The kinds of phrases, with what they mean.  For expressions, relations and
    combinations of queries, the number says how tightly they are bound: an
    expression of level 1 may be an OR, of level 2 an AND, of level 3 a NOT, of
    level 4 a predicate, of level 5 to 7 an operator, of level 8 a sign, and of
    level 9 is a primary one; at level 0 it may be a lambda.  Level 10 is a query in
    parentheses. *)
Inductive phrase :=
| PList (l : list phrase)                          (* one or more, with commas *)
| PExpr (c : nat) (e : node)
| PClause (k : list token) (c : nat) (o : option node) (* nothing, or [k] and an expression *)
| PWhens (l : list (node * node))
| PArgs (l : list node)
| PSort (o : order node)
| POrder (l : list (order node))
| PBound (b : bound node)
| PFrame (f : frame_type) (s e : bound node)
| PPartition (l : list node)
| PWindow (w : window node)
| POver (o : option (window node))
| PFilter (o : option node)
| PItem (e : node)
| PSet (l : list node)
| PGroup (g : group node)
| PGroupBy (o : option (groupby node))
| PRel (c : nat) (r : node)
| PFrom (o : option node)
| PCriteria (x : jcrit node)
| PWindef (x : string * window node)
| PWindows (l : list (string * window node))
| PNamed (e : node)
| PWith (l : list node)
| PCore (q : node)
| PTerm (c : nat) (q : node)
| PQuery (q : node)
| PAny                                             (* a value that is not kept *)
| PNothing                                         (* an expression that is read as None *)
| PHidden                                          (* a query that is read as None *)
| PWhole                                           (* an expression that is not kept *)
| PMember                                          (* a member of JSON_OBJECT *)
| PArgument.                                       (* an argument of a table function *)
Definition PExprs (l : list node) : phrase := PList (map (PExpr 0) l).

(** The clauses of words at the end of the JSON functions 529-558. *)
Definition each_of (l m : list (list string)) : list (list string) := flat_map (fun a => map (fun b => a ++ b) m) l.
Definition json_wrappers : list (list string) :=
  [[]; ["WITHOUT"; "WRAPPER"]; ["WITHOUT"; "ARRAY"; "WRAPPER"]; ["WITH"; "WRAPPER"]; ["WITH"; "ARRAY"; "WRAPPER"];
   ["WITH"; "CONDITIONAL"; "WRAPPER"]; ["WITH"; "CONDITIONAL"; "ARRAY"; "WRAPPER"];
   ["WITH"; "UNCONDITIONAL"; "WRAPPER"]; ["WITH"; "UNCONDITIONAL"; "ARRAY"; "WRAPPER"]].
Definition json_quotes : list (list string) :=
  [[]; ["KEEP"; "QUOTES"]; ["OMIT"; "QUOTES"]; ["KEEP"; "QUOTES"; "ON"; "SCALAR"; "STRING"];
   ["OMIT"; "QUOTES"; "ON"; "SCALAR"; "STRING"]].
Definition in_case (l : list (list string)) (k : string) : list (list string) := [] :: map (fun a => a ++ ["ON"; k]) l.
Definition json_tails (k : string) : list (list string) :=
  if String.eqb k "JSON_EXISTS" then in_case [["TRUE"]; ["FALSE"]; ["UNKNOWN"]; ["ERROR"]] "ERROR"
  else if String.eqb k "JSON_VALUE" then
    each_of (in_case [["ERROR"]; ["NULL"]] "EMPTY") (in_case [["ERROR"]; ["NULL"]] "ERROR")
  else if String.eqb k "JSON_QUERY" then
    let b := [["ERROR"]; ["NULL"]; ["EMPTY"; "ARRAY"]; ["EMPTY"; "OBJECT"]] in
    each_of json_wrappers (each_of json_quotes (each_of (in_case b "EMPTY") (in_case b "ERROR")))
  else [].
Definition json_nulls : list (list string) := [[]; ["NULL"; "ON"; "NULL"]; ["ABSENT"; "ON"; "NULL"]].
Definition json_unique : list (list string) :=
  [[]; ["WITH"; "UNIQUE"]; ["WITH"; "UNIQUE"; "KEYS"]; ["WITHOUT"; "UNIQUE"]; ["WITHOUT"; "UNIQUE"; "KEYS"]].
Definition not_key (ts : list token) : bool :=
  match ts with TKw k _ :: _ => negb (String.eqb k "KEY") | _ => true end.
(** An argument of a table function that is an expression 417-419, 433-436 *)
Definition plain_argument (ts : list token) : bool :=
  match ts with TKw k _ :: _ => negb (mem k ["TABLE"; "DESCRIPTOR"; "CAST"]) | _ => true end
  && match ts with _ :: TSym s :: _ => negb (String.eqb s "=>") | _ => true end.

Inductive derives (en : env) : phrase -> list token -> Prop :=
(** ** One or more *)
| d_one p ts : derives en p ts -> derives en (PList [p]) ts
| d_more p ts l tl : derives en p ts -> derives en (PList l) tl -> derives en (PList (p :: l)) (ts ++ TSym "," :: tl)

(** ** Expressions: g4 446-528 *)
(** An expression that is bound more tightly than needed. *)
| d_tighter c c' e ts : c' <= c -> derives en (PExpr c e) ts -> derives en (PExpr c' e) ts
(** [parenthesizedExpression] 527, convert.py 994 *)
| d_paren e ts : derives en (PExpr 0 e) ts -> is_query e = false -> derives en (PExpr 9 e) (paren ts)
(** [subqueryExpression] 501, convert.py 988-991; one more pair of parentheses
    and the query is lost (see below) *)
| d_scalar q tq : derives en (PQuery q) tq -> value q -> derives en (PExpr 10 q) (paren tq)
(** [booleanExpression] 450-454, convert.py 329-343 *)
| d_or l tl r tr : derives en (PExpr 1 l) tl -> derives en (PExpr 2 r) tr -> value (NBin BOr l r) ->
    derives en (PExpr 1 (NBin BOr l r)) (tl ++ K "OR" :: tr)
| d_and l tl r tr : derives en (PExpr 2 l) tl -> derives en (PExpr 3 r) tr -> value (NBin BAnd l r) ->
    derives en (PExpr 2 (NBin BAnd l r)) (tl ++ K "AND" :: tr)
| d_not e te : derives en (PExpr 3 e) te -> value (NUn UNot e) -> derives en (PExpr 3 (NUn UNot e)) (K "NOT" :: te)
(** [predicate] 459-466, convert.py 359-429 *)
| d_compare op s l tl r tr :
    In (op, s) [(BEq, "="); (BNe, "<>"); (BLt, "<"); (BLe, "<="); (BGt, ">"); (BGe, ">=")] ->
    derives en (PExpr 5 l) tl -> derives en (PExpr 5 r) tr -> value (NBin op l r) ->
    derives en (PExpr 4 (NBin op l r)) (tl ++ TSym s :: tr)
| d_between neg v tv a ta b tb :
    derives en (PExpr 5 v) tv -> derives en (PExpr 5 a) ta -> derives en (PExpr 5 b) tb -> value (NBetween v a b) ->
    derives en (PExpr 4 (negated neg (NBetween v a b))) (tv ++ not_word neg ++ K "BETWEEN" :: ta ++ K "AND" :: tb)
| d_in neg v tv l tl :
    derives en (PExpr 5 v) tv -> derives en (PExprs l) tl -> value (NInList v l) ->
    derives en (PExpr 4 (negated neg (NInList v l))) (tv ++ not_word neg ++ K "IN" :: paren tl)
| d_in_query neg v tv q tq :
    derives en (PExpr 5 v) tv -> derives en (PQuery q) tq -> value (NInQuery v q) ->
    derives en (PExpr 4 (negated neg (NInQuery v q))) (tv ++ not_word neg ++ K "IN" :: paren tq)
| d_like neg v tv p tp o to :
    derives en (PExpr 5 v) tv -> derives en (PExpr 5 p) tp -> derives en (PClause [K "ESCAPE"] 5 o) to ->
    value (NLike v p o) ->
    derives en (PExpr 4 (negated neg (NLike v p o))) (tv ++ not_word neg ++ K "LIKE" :: tp ++ to)
| d_null neg v tv : derives en (PExpr 5 v) tv ->
    derives en (PExpr 4 (negated neg (NUn UIsNull v))) (tv ++ K "IS" :: not_word neg ++ [K "NULL"])
| d_distinct neg l tl r tr : derives en (PExpr 5 l) tl -> derives en (PExpr 5 r) tr -> value (NBin BDistinct l r) ->
    derives en (PExpr 4 (negated neg (NBin BDistinct l r)))
      (tl ++ K "IS" :: not_word neg ++ K "DISTINCT" :: K "FROM" :: tr)
(** [valueExpression] 470-475, convert.py 438-454 *)
| d_concat l tl r tr : derives en (PExpr 5 l) tl -> derives en (PExpr 6 r) tr ->
    value (NFunc FConcatenate [l; r] no_fopts) ->
    derives en (PExpr 5 (NFunc FConcatenate [l; r] no_fopts)) (tl ++ TSym "||" :: tr)
| d_sum op s l tl r tr : In (op, s) [(BAdd, "+"); (BMinus, "-")] ->
    derives en (PExpr 6 l) tl -> derives en (PExpr 7 r) tr -> value (NBin op l r) ->
    derives en (PExpr 6 (NBin op l r)) (tl ++ TSym s :: tr)
| d_product op s l tl r tr : In (op, s) [(BMul, "*"); (BDiv, "/"); (BMod, "%")] ->
    derives en (PExpr 7 l) tl -> derives en (PExpr 8 r) tr -> value (NBin op l r) ->
    derives en (PExpr 7 (NBin op l r)) (tl ++ TSym s :: tr)
| d_minus e te : derives en (PExpr 8 e) te -> no_number te = true -> value (NUn UNeg e) ->
    derives en (PExpr 8 (NUn UNeg e)) (TSym "-" :: te)
| d_plus e te : derives en (PExpr 8 e) te -> value (NUn UPos e) ->
    derives en (PExpr 8 (NUn UPos e)) (TSym "+" :: te)
(** literals 479-486, convert.py 669-768 *)
| d_null_literal : derives en (PExpr 9 (NLit LNone unknown)) [K "NULL"]
| d_true : derives en (PExpr 9 (NLit (LBool true) (TSimple SBoolean))) [K "TRUE"]
| d_false : derives en (PExpr 9 (NLit (LBool false) (TSimple SBoolean))) [K "FALSE"]
| d_integer s : let z := Z.of_N (digits 0 s) in derives en (PExpr 9 (NLit (LInt z) (int_type z))) [TInt s]
| d_minus_integer s : let z := (- Z.of_N (digits 0 s))%Z in
    derives en (PExpr 9 (NLit (LInt z) (int_type z))) [TSym "-"; TInt s]
| d_decimal a b t : str_forall is_digit a = true -> infer_decimal (decimal_of false a b) = Ok t ->
    value (NLit (LDec (decimal_of false a b)) t) ->
    derives en (PExpr 9 (NLit (LDec (decimal_of false a b)) t)) [TDec (a ++ String "."%char b)]
| d_minus_decimal a b t : str_forall is_digit a = true -> infer_decimal (decimal_of false a b) = Ok t ->
    (digits 0 (a ++ b) <> 0)%N -> (digits 0 (a ++ b) < 10 ^ 28)%N ->
    value (NLit (LDec (decimal_of true a b)) t) ->
    derives en (PExpr 9 (NLit (LDec (decimal_of true a b)) t)) [TSym "-"; TDec (a ++ String "."%char b)]
| d_string s : let v := strip squote s in
    value (NLit (LStr v) (TVarchar (Some (zlen v)))) ->
    derives en (PExpr 9 (NLit (LStr v) (TVarchar (Some (zlen v))))) [TString s]
| d_interval t m tm s u f g tg : word "INTERVAL" t -> sign m tm -> field_word u f -> upto g tg ->
    value (NInterval (signed_text m (strip squote s)) f g) ->
    derives en (PExpr 9 (NInterval (signed_text m (strip squote s)) f g)) (t :: tm ++ TString s :: u :: tg)
| d_constructor t n s : ctor_name t n -> value (NTypeCtor (strip squote s) (upper n)) ->
    derives en (PExpr 9 (NTypeCtor (strip squote s) (upper n))) [t; TString s]
(** columns 510-511, convert.py 611, 980 *)
| d_column n : derives en (PExpr 9 (NField n TRNone unknown)) [TId n]
| d_qualified t n : derives en (PExpr 9 (NField n (TRStr t) unknown)) [TId t; TSym "."; TId n]
(** rows, arrays, subscripts 489-490, 508-509, convert.py 866, 927, 933 *)
| d_tuple a b l tl : derives en (PExprs (a :: b :: l)) tl -> value (NRow (a :: b :: l)) ->
    derives en (PExpr 9 (NRow (a :: b :: l))) (paren tl)
| d_row t l tl : word "ROW" t -> derives en (PExprs l) tl -> value (NRow l) ->
    derives en (PExpr 9 (NRow l)) (t :: paren tl)
| d_array t l tl : word "ARRAY" t -> derives en (PExprs l) tl -> value (NArray l) ->
    derives en (PExpr 9 (NArray l)) (t :: TSym "[" :: tl ++ [TSym "]"])
| d_subscript v tv i ti : derives en (PExpr 9 v) tv -> derives en (PExpr 5 i) ti -> value (NSubscript v i) ->
    derives en (PExpr 9 (NSubscript v i)) (tv ++ TSym "[" :: ti ++ [TSym "]"])
(** lambdas 499-500, convert.py 841: the names of the body that are parameters
    become variables *)
| d_lambda_one n b tb b' : derives en (PExpr 0 b) tb -> subst [n] b = Ok b' -> value (NLambda [n] b') ->
    derives en (PExpr 0 (NLambda [n] b')) (TId n :: TSym "->" :: tb)
| d_lambda l b tb b' : l <> [] -> derives en (PExpr 0 b) tb -> subst l b = Ok b' -> value (NLambda l b') ->
    derives en (PExpr 0 (NLambda l b')) (paren (names l) ++ TSym "->" :: tb)
(** CASE 504-505, convert.py 460-477 *)
| d_case v tv l tl o to : derives en (PClause [] 0 v) tv -> derives en (PWhens l) tl ->
    derives en (PClause [K "ELSE"] 0 o) to -> value (NCase l o v) ->
    derives en (PExpr 9 (NCase l o v)) (K "CASE" :: tv ++ tl ++ to ++ [K "END"])
| d_when_one a ta b tb : derives en (PExpr 0 a) ta -> derives en (PExpr 0 b) tb ->
    derives en (PWhens [(a, b)]) (K "WHEN" :: ta ++ K "THEN" :: tb)
| d_when a ta b tb l tl : derives en (PExpr 0 a) ta -> derives en (PExpr 0 b) tb -> derives en (PWhens l) tl ->
    derives en (PWhens ((a, b) :: l)) (K "WHEN" :: ta ++ K "THEN" :: tb ++ tl)
| d_absent k c : derives en (PClause k c None) []
| d_present k c e te : derives en (PExpr c e) te -> derives en (PClause k c (Some e)) (k ++ te)
(** CAST 506-507, convert.py 483; NORMALIZE 525, convert.py 661 *)
| d_cast e te t tt : derives en (PExpr 0 e) te -> wf_type t = true -> type_text t tt -> value (NCast false e t) ->
    derives en (PExpr 9 (NCast false e t)) (K "CAST" :: paren (te ++ K "AS" :: tt))
| d_try_cast u e te t tt : word "TRY_CAST" u -> derives en (PExpr 0 e) te -> wf_type t = true -> type_text t tt ->
    value (NCast true e t) ->
    derives en (PExpr 9 (NCast true e t)) (u :: paren (te ++ K "AS" :: tt))
| d_normalize e te tf : derives en (PExpr 5 e) te ->
    (tf = [] \/ exists k x, mem k norm_forms = true /\ tf = [TSym ","; TKw k x]) -> value (NNormalize e None) ->
    derives en (PExpr 9 (NNormalize e None)) (K "NORMALIZE" :: paren (te ++ tf))
(** CURRENT_DATE and the like 512-520, convert.py 623-655 *)
| d_session f : fn_bare f = true -> names_to_functions en (fn_name f) = Some f ->
    derives en (PExpr 9 (NFunc f [] no_fopts)) [K (fn_name f)]
| d_now f : In f clocks -> names_to_functions en (fn_name f) = Some f -> value (NDateTime f 3) ->
    derives en (PExpr 9 (NDateTime f 3)) [K (fn_name f)]
| d_now_precise f s : In f clocks -> names_to_functions en (fn_name f) = Some f ->
    value (NDateTime f (number s)) ->
    derives en (PExpr 9 (NDateTime f (number s))) [K (fn_name f); TSym "("; TInt s; TSym ")"]
(** calls 494-497, convert.py 781; from_unixtime with one argument is another
    class, and not covered here *)
| d_call t n f l ta ob tob fi tf tr tn w tw :
    call_word t n -> names_to_functions en (upper n) = Some f ->
    derives en (PArgs l) ta -> derives en (POrder ob) tob -> derives en (PFilter fi) tf -> treatment tr tn ->
    derives en (POver w) tw -> (tr <> None -> w <> None) -> (f = FFromUnixtime -> length l <> 1) ->
    (tf <> [] -> is_aggregate f = true) ->
    value (NFunc f (arranged f l) (mkFopts ob fi w (ignores tr))) ->
    derives en (PExpr 9 (NFunc f (arranged f l) (mkFopts ob fi w (ignores tr))))
      (t :: paren (ta ++ tob) ++ tf ++ tn ++ tw)
| d_call_star t n f r ts fi tf w tw :
    call_word t n -> names_to_functions en (upper n) = Some f -> star r ts ->
    derives en (PFilter fi) tf -> derives en (POver w) tw -> f <> FFromUnixtime -> (tf <> [] -> is_aggregate f = true) ->
    value (NFunc f [NStar r unknown] (mkFopts [] fi w false)) ->
    derives en (PExpr 9 (NFunc f [NStar r unknown] (mkFopts [] fi w false))) (t :: paren ts ++ tf ++ tw)
| d_args_none : derives en (PArgs []) []
| d_args q l tl : quantifier q -> derives en (PExprs l) tl -> derives en (PArgs l) (q ++ tl)
| d_filter_none : derives en (PFilter None) []
| d_filter t e te : word "FILTER" t -> derives en (PExpr 0 e) te ->
    derives en (PFilter (Some e)) (t :: paren (K "WHERE" :: te))
(** LISTAGG 491-493, 337-345, convert.py 873-906 *)
| d_listagg q v tv sp tsp ov tov u l tl :
    quantifier q -> derives en (PExpr 0 v) tv -> separator sp tsp -> overflow ov tov -> word "WITHIN" u ->
    derives en (PList (map PSort l)) tl -> value (NListAgg v sp ov l) ->
    derives en (PExpr 9 (NListAgg v sp ov l))
      (K "LISTAGG" :: paren (q ++ tv ++ tsp ++ tov) ++ u :: K "GROUP" :: paren (K "ORDER" :: K "BY" :: tl))

(** ** Order: g4 244, convert.py 264 *)
| d_sort e te d td f tf : derives en (PExpr 0 e) te -> direction d td -> nulls f tf ->
    derives en (PSort (mkOrder e d f)) (te ++ td ++ tf)
| d_order_none : derives en (POrder []) []
| d_order l tl : derives en (PList (map PSort l)) tl -> derives en (POrder l) (K "ORDER" :: K "BY" :: tl)

(** ** Windows: g4 277-282, 692-720, convert.py 920, 1202-1263 *)
| d_unbounded d t u : word "UNBOUNDED" t -> word (side d) u -> derives en (PBound (BUnbounded d)) [t; u]
| d_current t u : word "CURRENT" t -> word "ROW" u -> derives en (PBound BCurrent) [t; u]
| d_bounded d e te u : derives en (PExpr 0 e) te -> word (side d) u -> derives en (PBound (BBounded d e)) (te ++ [u])
| d_frame_none : derives en (PFrame FTRange (BUnbounded false) BCurrent) []
| d_frame f t s ts : word (frame_text f) t -> derives en (PBound s) ts -> derives en (PFrame f s BCurrent) (t :: ts)
| d_frame_between f t s ts e te : word (frame_text f) t -> derives en (PBound s) ts -> derives en (PBound e) te ->
    derives en (PFrame f s e) (t :: K "BETWEEN" :: ts ++ K "AND" :: te)
| d_partition_none : derives en (PPartition []) []
| d_partition t l tl : word "PARTITION" t -> derives en (PExprs l) tl -> derives en (PPartition l) (t :: K "BY" :: tl)
| d_window p tp ps tps ob tob f s e tf :
    parent p tp -> derives en (PPartition ps) tps -> derives en (POrder ob) tob -> derives en (PFrame f s e) tf ->
    derives en (PWindow (mkWindow p ob ps f s e)) (tp ++ tps ++ tob ++ tf)
| d_over_none : derives en (POver None) []
| d_over t w tw : word "OVER" t -> derives en (PWindow w) tw -> derives en (POver (Some w)) (t :: paren tw)
| d_over_name t p : word "OVER" t -> derives en (POver (Some (named_window p))) [t; TId p]

(** ** Select items: g4 293-297, convert.py 945, 1000 *)
| d_item e te : derives en (PExpr 0 e) te -> derives en (PItem e) te
| d_item_alias e te a ta : derives en (PExpr 0 e) te -> alias a ta -> constructs (NAliased e a) ->
    derives en (PItem (NAliased e a)) (te ++ ta)
| d_item_star r ts : star r ts -> derives en (PItem (NStar r unknown)) ts
| d_item_star_names n l : l <> [] -> constructs (NAliasedStar (NStar (TRStr n) unknown) l) ->
    derives en (PItem (NAliasedStar (NStar (TRStr n) unknown) l))
      (TId n :: TSym "." :: TSym "*" :: K "AS" :: paren (names l))

(** ** Grouping: g4 257-271, convert.py 1156-1186 *)
| d_set_one e te : derives en (PExpr 0 e) te -> no_bracket te = true -> derives en (PSet [e]) te
| d_set_none : derives en (PSet []) (paren [])
| d_set l tl : derives en (PExprs l) tl -> derives en (PSet l) (paren tl)
| d_group_set l ts : derives en (PSet l) ts -> derives en (PGroup (GSet l)) ts
| d_rollup l tl : derives en (PExprs l) tl -> derives en (PGroup (GRollup l)) (K "ROLLUP" :: paren tl)
| d_cube l tl : derives en (PExprs l) tl -> derives en (PGroup (GCube l)) (K "CUBE" :: paren tl)
| d_sets t l tl : word "SETS" t -> derives en (PList (map PSet l)) tl ->
    derives en (PGroup (GSets l)) (K "GROUPING" :: t :: paren tl)
| d_groupby_none : derives en (PGroupBy None) []
| d_groupby d tq l tl : quantity d tq -> derives en (PList (map PGroup l)) tl ->
    derives en (PGroupBy (Some (mkG l d))) (K "GROUP" :: K "BY" :: tq ++ tl)

(** ** Relations: g4 299-324, 395-410, convert.py 1019-1139 *)
| d_rel_tighter c c' r ts : c' <= c -> derives en (PRel c r) ts -> derives en (PRel c' r) ts
| d_table l t : table_name l t -> derives en (PRel 3 t) (dotted l)
| d_rel_query q tq : derives en (PQuery q) tq -> derives en (PRel 3 q) (paren tq)
| d_rel_paren r ts : derives en (PRel 0 r) ts -> no_symbol ts = true -> derives en (PRel 3 r) (paren ts)
| d_lateral t q tq : word "LATERAL" t -> derives en (PQuery q) tq -> constructs (NLateral q) ->
    derives en (PRel 3 (NLateral q)) (t :: paren tq)
| d_unnest l tl o to : derives en (PExprs l) tl -> ordinality o to -> constructs (NUnnest l o) ->
    derives en (PRel 3 (NUnnest l o)) (K "UNNEST" :: paren tl ++ to)
| d_rel_alias r ts a ta cols : derives en (PRel 3 r) ts -> alias a ta -> constructs (NAliasedRel r a cols) ->
    derives en (PRel 2 (NAliasedRel r a cols)) (ts ++ ta ++ columns cols)
| d_sample r ts t st p tp : derives en (PRel 2 r) ts -> word "TABLESAMPLE" t -> derives en (PExpr 0 p) tp ->
    constructs (NSample r st p) ->
    derives en (PRel 1 (NSample r st p)) (ts ++ t :: K (sample_text st) :: paren tp)
| d_join l tl r tr jt tj x tx : derives en (PRel 0 l) tl -> derives en (PRel 0 r) tr -> join_words jt tj ->
    derives en (PCriteria x) tx -> constructs (NJoin l r jt false (Some x)) ->
    derives en (PRel 0 (NJoin l r jt false (Some x))) (tl ++ tj ++ K "JOIN" :: tr ++ tx)
| d_join_plain l tl r tr jt n tj : derives en (PRel 0 l) tl -> derives en (PRel 1 r) tr -> plain_words jt n tj ->
    constructs (NJoin l r jt n None) ->
    derives en (PRel 0 (NJoin l r jt n None)) (tl ++ tj ++ K "JOIN" :: tr)
| d_on e te : derives en (PExpr 0 e) te -> derives en (PCriteria (JOn e)) (K "ON" :: te)
| d_using l : l <> [] -> derives en (PCriteria (JUsing l)) (K "USING" :: paren (names l))

(** ** Queries: g4 174-255, 273, 284, convert.py 195-323, 1196, 1269 *)
| d_from_none : derives en (PFrom None) []
| d_from r tr : derives en (PRel 0 r) tr -> derives en (PFrom (Some r)) (K "FROM" :: tr)
| d_windef n w tw : derives en (PWindow w) tw -> derives en (PWindef (n, w)) (TId n :: K "AS" :: paren tw)
| d_windows_none : derives en (PWindows []) []
| d_windows t l tl : word "WINDOW" t -> derives en (PList (map PWindef l)) tl -> NoDup (map fst l) ->
    derives en (PWindows l) (t :: tl)
| d_select d tq l tl fr tfr wh twh gb tgb hv thv ws tws :
    quantity d tq -> derives en (PList (map PItem l)) tl -> derives en (PFrom fr) tfr ->
    derives en (PClause [K "WHERE"] 0 wh) twh -> derives en (PGroupBy gb) tgb ->
    derives en (PClause [K "HAVING"] 0 hv) thv -> derives en (PWindows ws) tws ->
    constructs (NSelect l fr wh gb hv d ws no_qattrs) ->
    derives en (PCore (NSelect l fr wh gb hv d ws no_qattrs))
      (K "SELECT" :: tq ++ tl ++ tfr ++ twh ++ tgb ++ thv ++ tws)
| d_table_query l t : table_name l t -> derives en (PCore (NTableQuery t no_qattrs)) (K "TABLE" :: dotted l)
| d_values l tl : derives en (PExprs l) tl -> constructs (NValues l no_qattrs) ->
    derives en (PCore (NValues l no_qattrs)) (K "VALUES" :: tl)
| d_term_tighter c c' q ts : c' <= c -> derives en (PTerm c q) ts -> derives en (PTerm c' q) ts
| d_core q ts : derives en (PCore q) ts -> derives en (PTerm 3 q) ts
| d_set_op op l tl r tr d tq : derives en (PTerm (op_tight op) l) tl -> derives en (PTerm (S (op_tight op)) r) tr ->
    set_quantity d tq -> constructs (NSetQuery op l r d no_qattrs) ->
    derives en (PTerm (op_tight op) (NSetQuery op l r d no_qattrs)) (tl ++ K (op_text op) :: tq ++ tr)
| d_named n cols q tq : derives en (PQuery q) tq -> constructs (NAliasedRel q n cols) ->
    derives en (PNamed (NAliasedRel q n cols)) (TId n :: columns cols ++ K "AS" :: paren tq)
| d_with_none : derives en (PWith []) []
| d_with l tl : derives en (PList (map PNamed l)) tl -> derives en (PWith l) (K "WITH" :: tl)
| d_query ws tw q tq ob tob off tof lim tlm :
    derives en (PWith ws) tw -> derives en (PTerm 0 q) tq -> derives en (POrder ob) tob ->
    offset_text off tof -> limit_text lim tlm ->
    derives en (PQuery (dressed (mkQ ws ob off lim) q)) (tw ++ tq ++ tob ++ tof ++ tlm)

(** ** What is read as nothing.  These alternatives of [primaryExpression] and
    [queryPrimary] have no visitor: what they contain is visited, and the result
    is that of the last child, a closing parenthesis or a literal's token: None *)
| d_any e ts : derives en (PExpr 5 e) ts -> derives en PAny ts
| d_any_nothing ts : derives en PNothing ts -> derives en PAny ts
(** a query in parentheses 241 *)
| d_hidden q tq : derives en (PQuery q) tq -> no_with_word tq = true -> derives en PHidden (paren tq)
| d_hidden_more ts : derives en PHidden ts -> derives en PHidden (paren ts)
| d_nothing_query ts : derives en PHidden ts -> derives en PNothing (paren ts)
| d_nothing_paren ts : derives en PNothing ts -> derives en PNothing (paren ts)
(** [binaryLiteral] 486 *)
| d_binary s : derives en PNothing [TBinary s]
(** [exists] 503 *)
| d_exists q tq : derives en (PQuery q) tq -> derives en PNothing (K "EXISTS" :: paren tq)
| d_exists_hidden ts : derives en PHidden ts -> derives en PNothing (K "EXISTS" :: paren ts)
(** [position] 488 *)
| d_position t ta tb : word "POSITION" t -> derives en PAny ta -> derives en PAny tb ->
    derives en PNothing (t :: paren (ta ++ K "IN" :: tb))
(** [trim] 521-523, 331-335 *)
| d_trim ta : derives en PAny ta -> no_trim_word ta = true -> derives en PNothing (K "TRIM" :: paren ta)
| d_trim_comma ta tb : derives en PAny ta -> no_trim_word ta = true -> derives en PAny tb ->
    derives en PNothing (K "TRIM" :: paren (ta ++ TSym "," :: tb))
| d_trim_from ts tb : trim_spec ts [] -> derives en PAny tb ->
    derives en PNothing (K "TRIM" :: paren (ts ++ K "FROM" :: tb))
| d_trim_chars ts ta tb : trim_spec ts ta -> derives en PAny ta -> derives en PAny tb ->
    derives en PNothing (K "TRIM" :: paren (ts ++ ta ++ K "FROM" :: tb))
(** [substring] 524 *)
| d_substring t ta tb : word "SUBSTRING" t -> derives en PAny ta -> derives en PAny tb ->
    derives en PNothing (t :: paren (ta ++ K "FROM" :: tb))
| d_substring_for t ta tb tc : word "SUBSTRING" t -> derives en PAny ta -> derives en PAny tb -> derives en PAny tc ->
    derives en PNothing (t :: paren (ta ++ K "FROM" :: tb ++ K "FOR" :: tc))
(** [extract] 526 *)
| d_extract t tb : name_word t -> derives en PAny tb -> derives en PNothing (K "EXTRACT" :: paren (t :: K "FROM" :: tb))
(** [groupingOperation] 528 *)
| d_grouping_none : derives en PNothing (K "GROUPING" :: paren [])
| d_grouping l : l <> [] -> (forall x, In x l -> x <> []) ->
    derives en PNothing (K "GROUPING" :: paren (commas (map dotted l)))
(** The JSON functions 529-558, 603-606; no visitor, as above *)
| d_whole e ts : derives en (PExpr 0 e) ts -> derives en PWhole ts
| d_whole_nothing ts : derives en PNothing ts -> derives en PWhole ts
| d_json_path k ta s tail : In tail (json_tails k) -> derives en PWhole ta ->
    derives en PNothing (K k :: paren (ta ++ TSym "," :: TString s :: map K tail))
| d_json_default ta s td w : In w ["EMPTY"; "ERROR"] -> derives en PWhole ta -> derives en PWhole td ->
    derives en PNothing (K "JSON_VALUE" :: paren (ta ++ TSym "," :: TString s :: K "DEFAULT" :: td ++ [K "ON"; K w]))
| d_json_array_none : derives en PNothing (K "JSON_ARRAY" :: paren [])
| d_json_array n tl tail : In tail json_nulls -> derives en (PList (repeat PWhole n)) tl ->
    derives en PNothing (K "JSON_ARRAY" :: paren (tl ++ map K tail))
| d_json_object_none : derives en PNothing (K "JSON_OBJECT" :: paren [])
| d_json_object n tl tail : In tail (each_of json_nulls json_unique) -> derives en (PList (repeat PMember n)) tl ->
    derives en PNothing (K "JSON_OBJECT" :: paren (tl ++ map K tail))
| d_member_key ta tb : derives en PWhole ta -> derives en PWhole tb ->
    derives en PMember (K "KEY" :: ta ++ K "VALUE" :: tb)
| d_member_value ta tb : derives en PWhole ta -> not_key ta = true -> derives en PWhole tb ->
    derives en PMember (ta ++ K "VALUE" :: tb)
| d_member_colon ta tb : derives en PWhole ta -> not_key ta = true -> derives en PWhole tb ->
    derives en PMember (ta ++ TSym ":" :: tb)
(** A clause whose expression is read as nothing is lost: convert.py
    1293-1296 (WHERE, HAVING), 410 (ESCAPE), 462 (the operand of CASE), 821-823
    (FILTER); so is FROM, 1286 *)
| d_lost k c ts : In k [[]; [K "ESCAPE"]; [K "WHERE"]; [K "HAVING"]] -> derives en PNothing ts ->
    derives en (PClause k c None) (k ++ ts)
| d_filter_lost t ts : word "FILTER" t -> derives en PNothing ts -> derives en (PFilter None) (t :: paren (K "WHERE" :: ts))
| d_from_lost ts : derives en PHidden ts -> derives en (PFrom None) (K "FROM" :: paren ts)
(** Table functions 408-431; no visitor for the relation *)
| d_argument ts : derives en PWhole ts -> plain_argument ts = true -> derives en PArgument ts
| d_argument_table l : l <> [] -> derives en PArgument (K "TABLE" :: paren (dotted l))
| d_argument_named x ts : derives en PWhole ts -> plain_argument ts = true -> derives en PArgument (TId x :: TSym "=>" :: ts)
| d_argument_named_table x l : l <> [] -> derives en PArgument (TId x :: TSym "=>" :: K "TABLE" :: paren (dotted l))
| d_from_table_none l : l <> [] -> derives en (PFrom None) (K "FROM" :: K "TABLE" :: paren (dotted l ++ paren []))
| d_from_table l n ta : l <> [] -> derives en (PList (repeat PArgument n)) ta ->
    derives en (PFrom None) (K "FROM" :: K "TABLE" :: paren (dotted l ++ paren ta)).
