(** The whole grammar as rules, as an upper bound of what is accepted: each rule is
    an alternative of treeno/grammar/SqlBase.g4 with what treeno/builder/convert.py
    makes of it, without any look-ahead or order of alternatives, for names in every
    spelling and keywords in every case.  The conditions on objects are the typing
    rules (Typing.v).  (Grammar.v is the lower bound: those rules leave out what the
    order of alternatives or the look-ahead could turn into something else.) *)
From Coq Require Import String Ascii List ZArith NArith Bool.
From Verif Require Import PyStr Types Inference Floats UniText Lexer TypeParser Functions Ast Sql Parser Tokens Typing Grammar.
Import ListNotations.
Open Scope nat_scope.
Open Scope string_scope.
Open Scope list_scope.

(** The constructor accepts its arguments. *)
Definition buildable (e : node) : Prop := exists t, has e t.
(** What is read as nothing is left out. *)
Definition kept (e : node) : option node := match e with NNone => None | _ => Some e end.

(** * Words *)
(** [identifier] 814-820, convert.py 955-977; names in back quotes and names that
    start with a digit raise. *)
Inductive name : string -> list token -> Prop :=
| name_plain n : name n [TId n]
| name_quoted s : name (strip dquote s) [TQuoted s]
| name_keyword k x : mem k non_reserved = true -> name x [TKw k x].
(** [string] 808-812, convert.py 732-755; what a unicode string stands for is C64's subject. *)
Inductive text : string -> list token -> Prop :=
| text_plain s : text (strip squote s) [TString s]
| text_unicode u v : v_unicode "\" u = Ok v -> text v [TUniString u]
| text_escaped u x e v : v_unicode (strip squote e) u = Ok v -> text v [TUniString u; TKw "UESCAPE" x; TString e].
(** Names with commas, names with dots. *)
Inductive name_list : list string -> list token -> Prop :=
| names_one n t : name n t -> name_list [n] t
| names_more n t l ts : name n t -> name_list l ts -> name_list (n :: l) (t ++ TSym "," :: ts).
Inductive path : list string -> list token -> Prop :=
| path_one n t : name n t -> path [n] t
| path_more n t l ts : name n t -> path l ts -> path (n :: l) (t ++ TSym "." :: ts).
Inductive paths : list token -> Prop :=
| paths_one l ts : path l ts -> paths ts
| paths_more l ts us : path l ts -> paths us -> paths (ts ++ TSym "," :: us).
(** Names in parentheses, if there are any. *)
Inductive cols : list string -> list token -> Prop :=
| cols_none : cols [] []
| cols_some l ts : name_list l ts -> cols l (paren ts).
Inductive negation : bool -> list token -> Prop :=
| neg_no : negation false []
| neg_not x : negation true [TKw "NOT" x].
(** A decimal number: the digits without the dot, and the number of them after it. *)
Inductive decimal_text : string -> dec -> Prop :=
| dec_dot a b : has_char "."%char a = false ->
    decimal_text (a ++ String "."%char b) (mkDec false (digits 0 (a ++ b)) (- zlen b))
| dec_plain a : has_char "."%char a = false -> decimal_text a (mkDec false (digits 0 a) 0).
(** [interval] 640-642, convert.py 518-539, after INTERVAL. *)
Inductive interval : node -> list token -> Prop :=
| interval_made m tm v tv u f g tg : sign m tm -> text v tv -> field_word u f -> upto g tg ->
    buildable (NInterval (signed_text m v) f g) ->
    interval (NInterval (signed_text m v) f g) (tm ++ tv ++ u :: tg).
(** [setQuantifier]: in a call it is not kept; elsewhere it must be in capitals. *)
Inductive any_quantifier : list token -> Prop :=
| anyq_none : any_quantifier []
| anyq_some k x : In k ["DISTINCT"; "ALL"] -> any_quantifier [TKw k x].
Inductive quant : bool -> bool -> list token -> Prop :=
| quant_none d : quant d d []
| quant_distinct d k : In k ["DISTINCT"; "ALL"] -> quant d true [TKw k "DISTINCT"]
| quant_all d k : In k ["DISTINCT"; "ALL"] -> quant d false [TKw k "ALL"].
Inductive as_name : string -> list token -> Prop :=
| as_bare a t : name a t -> as_name a t
| as_word x a t : name a t -> as_name a (TKw "AS" x :: t).
(** convert.py 155-161: the last name is the table's; before it come the schema and
    the catalog, and whatever is before these is dropped. *)
Inductive table_of : list string -> node -> Prop :=
| table_one n : table_of [n] (NTable n None None)
| table_two s n : table_of [s; n] (NTable n (Some s) None)
| table_three l c s n : (c <> "" -> s <> "") -> table_of (l ++ [c; s; n]) (NTable n (Some s) (Some c)).
(** 337-345, convert.py 873-912. *)
Inductive separated : string -> list token -> Prop :=
| sep_default : separated " " []
| sep_text v tv : text v tv -> separated v (TSym "," :: tv).
Inductive filled : string -> list token -> Prop :=
| fill_default : filled "..." []
| fill_text v tv : text v tv -> filled v tv.
Inductive on_overflow : option (bool * string) -> list token -> Prop :=
| ovf_none : on_overflow None []
| ovf_error x y z : on_overflow None [TKw "ON" x; TKw "OVERFLOW" y; TKw "ERROR" z]
| ovf_truncate x y z f tf (w : bool) u v : filled f tf ->
    on_overflow (Some (w, f))
      (TKw "ON" x :: TKw "OVERFLOW" y :: TKw "TRUNCATE" z :: tf ++ [TKw (if w then "WITH" else "WITHOUT") u; TKw "COUNT" v]).
Inductive trim_part : list token -> Prop :=
| trim_part_none : trim_part []
| trim_part_word k x : In k trim_words -> trim_part [TKw k x].
(** The words of joins 308-312. *)
Inductive outer_word : list token -> Prop :=
| ow_none : outer_word []
| ow_some x : outer_word [TKw "OUTER" x].
Inductive join_kind : join_type -> list token -> Prop :=
| jk_plain : join_kind JInner []
| jk_inner x : join_kind JInner [TKw "INNER" x]
| jk_left x o : outer_word o -> join_kind JLeft (TKw "LEFT" x :: o)
| jk_right x o : outer_word o -> join_kind JRight (TKw "RIGHT" x :: o)
| jk_full x o : outer_word o -> join_kind JOuter (TKw "FULL" x :: o).
(** 212-229, convert.py 226-236, 257-261, 279-289: what is set, if anything. *)
Inductive rows : list token -> Prop :=
| rows_row x : rows [TKw "ROW" x]
| rows_rows x : rows [TKw "ROWS" x].
Inductive offset_of : option Z -> list token -> Prop :=
| ofs_none : offset_of None []
| ofs_some x s r : r = [] \/ rows r -> offset_of (Some (number s)) (TKw "OFFSET" x :: TInt s :: r).
Inductive limit_of : option (option Z) -> list token -> Prop :=
| lmt_none : limit_of None []
| lmt_some x s : limit_of (Some (Some (number s))) [TKw "LIMIT" x; TInt s]
| lmt_all x : limit_of (Some None) [TKw "LIMIT" x; TKw "ALL" "ALL"]
| lmt_fetch x k y c r e :
    In k ["FIRST"; "NEXT"] -> c = [] \/ (exists s, c = [TInt s]) \/ c = [TSym "?"] -> rows r ->
    (exists u, e = [TKw "ONLY" u]) \/ (exists u v, e = [TKw "WITH" u; TKw "TIES" v]) ->
    limit_of None (TKw "FETCH" x :: TKw k y :: c ++ r ++ e).

(** * Types: 652-672; the meaning of a syntax tree is given by its visitors
    (convert.py 492-610). *)
Inductive tform :=
| TType (t : ptype) | TParam (p : ptparam) | TParams (l : list ptparam)
| TField (f : prowfield) | TFields (l : list prowfield).
Inductive ident_token : pident -> token -> Prop :=
| id_plain n : ident_token (IdUnquoted n) (TId n)
| id_quoted s : ident_token (IdQuoted s) (TQuoted s)
| id_word k x : mem k non_reserved = true -> ident_token (IdUnquoted x) (TKw k x)
| id_back s : ident_token (IdBack s) (TBack s)
| id_digit s : ident_token (IdDigit s) (TDigitId s).
Inductive zone : bool -> list token -> Prop :=
| zone_none : zone false []
| zone_without x y z : zone false [TKw "WITHOUT" x; TKw "TIME" y; TKw "ZONE" z]
| zone_with x y z : zone true [TKw "WITH" x; TKw "TIME" y; TKw "ZONE" z].
Inductive syntax : tform -> list token -> Prop :=
| s_row x l tl : syntax (TFields l) tl -> syntax (TType (PTRow l)) (TKw "ROW" x :: paren tl)
| s_interval x u f g tg : field_word u f -> upto g tg -> syntax (TType (PTInterval f g)) (TKw "INTERVAL" x :: u :: tg)
| s_datetime k x z tz : In k ["TIMESTAMP"; "TIME"] -> zone z tz ->
    syntax (TType (PTDateTime (String.eqb k "TIMESTAMP") None z)) (TKw k x :: tz)
| s_datetime_param k x p tp z tz : In k ["TIMESTAMP"; "TIME"] -> syntax (TParam p) tp -> zone z tz ->
    syntax (TType (PTDateTime (String.eqb k "TIMESTAMP") (Some p) z)) (TKw k x :: paren tp ++ tz)
| s_double x y : syntax (TType PTDoublePrecision) [TKw "DOUBLE" x; TKw "PRECISION" y]
| s_old_array x t ts : syntax (TType t) ts ->
    syntax (TType (PTLegacyArray t)) (TKw "ARRAY" x :: TSym "<" :: ts ++ [TSym ">"])
| s_old_map x t ts u us : syntax (TType t) ts -> syntax (TType u) us ->
    syntax (TType (PTLegacyMap t u)) (TKw "MAP" x :: TSym "<" :: ts ++ TSym "," :: us ++ [TSym ">"])
| s_array t ts x : syntax (TType t) ts -> syntax (TType (PTArraySuffix t None)) (ts ++ [TKw "ARRAY" x])
| s_array_size t ts x n : syntax (TType t) ts ->
    syntax (TType (PTArraySuffix t (Some n))) (ts ++ [TKw "ARRAY" x; TSym "["; TInt n; TSym "]"])
| s_generic i t : ident_token i t -> syntax (TType (PTGeneric i [])) [t]
| s_generic_params i t l tl : ident_token i t -> syntax (TParams l) tl ->
    syntax (TType (PTGeneric i l)) (t :: paren tl)
| s_int n : syntax (TParam (PPInt n)) [TInt n]
| s_type t ts : syntax (TType t) ts -> syntax (TParam (PPType t)) ts
| s_params_one p ts : syntax (TParam p) ts -> syntax (TParams [p]) ts
| s_params p ts l tl : syntax (TParam p) ts -> syntax (TParams l) tl -> syntax (TParams (p :: l)) (ts ++ TSym "," :: tl)
| s_field t ts : syntax (TType t) ts -> syntax (TField (PRowField None t)) ts
| s_field_named i x t ts : ident_token i x -> syntax (TType t) ts -> syntax (TField (PRowField (Some i) t)) (x :: ts)
| s_fields_one f ts : syntax (TField f) ts -> syntax (TFields [f]) ts
| s_fields f ts l tl : syntax (TField f) ts -> syntax (TFields l) tl -> syntax (TFields (f :: l)) (ts ++ TSym "," :: tl).
Definition type_means (t : dtype) (ts : list token) : Prop :=
  exists p r, syntax (TType p) ts /\ visit_type p = Ok r /\ canon r = Some t.

(** * Phrases

    The number with an expression says how tightly it is bound: 1 may be an OR, 2 an
    AND, 3 a NOT, 4 a predicate, 5 a concatenation, 6 a sum, 7 a product, 8 a sign, 9
    AT TIME ZONE, 10 is a primary expression. *)
Inductive form :=
| FMany (l : list form)
| FExpr (c : nat) (e : node)
| FClause (k : string) (c : nat) (o : option node)
| FElse (o : option node)
| FOperand (o : option node)
| FWhens (l : list (node * node))
| FSort (o : order node)
| FOrder (l : list (order node))
| FBound (b : bound node)
| FFrame (f : frame_type) (s e : bound node)
| FPartition (l : list node)
| FWindow (w : window node)
| FOver (o : option (window node))
| FArgs (l : list node)
| FFilter (o : option node)
| FItem (e : node)
| FSet (l : list node)
| FGroup (g : group node)
| FGroupBy (o : option (groupby node))
| FRel (c : nat) (r : node)
| FFrom (o : option node)
| FCriteria (x : jcrit node)
| FWindef (x : string * window node)
| FWindows (l : list (string * window node))
| FNamed (e : node)
| FTerm (c : nat) (q : node)
| FBody (q : node)
| FQuery (q : node)
| FSkim (h : skeleton).
Definition FExprs (l : list node) : form := FMany (map (FExpr 1) l).

(** [x.*] (convert.py 1000-1016). *)
Definition starred (x : node) : tref node :=
  match x with NField n _ _ => TRStr n | NNone => TRNone | _ => TRVal x end.
(** The object of CURRENT_DATE and the like (convert.py 623-636). *)
Definition now (f : fn) (p : Z) : node :=
  match f with
  | FCurrentTime | FCurrentTimestamp | FLocalTime | FLocalTimestamp => NDateTime f p
  | _ => NFunc f [] no_fopts
  end.
Definition now_words := ["CURRENT_TIME"; "CURRENT_TIMESTAMP"; "LOCALTIME"; "LOCALTIMESTAMP"].
Definition session_words : list (string * fn) :=
  [("CURRENT_USER", FCurrentUser); ("CURRENT_CATALOG", FCurrentCatalog);
   ("CURRENT_SCHEMA", FCurrentSchema); ("CURRENT_PATH", FCurrentPath)].
Definition attrs_of (q : node) : option (qattrs node) :=
  match q with
  | NSelect _ _ _ _ _ _ _ a | NSetQuery _ _ _ _ a | NTableQuery _ a | NValues _ a => Some a
  | _ => None
  end.
Definition given {A} (d : A) (o : option A) : A := match o with Some a => a | None => d end.

Inductive means (en : env) : form -> list token -> Prop :=
| m_one p ts : means en p ts -> means en (FMany [p]) ts
| m_more p ts l tl : means en p ts -> means en (FMany l) tl -> means en (FMany (p :: l)) (ts ++ TSym "," :: tl)

(** ** Expressions *)
| m_tighter c c' e ts : c' <= c -> means en (FExpr c e) ts -> means en (FExpr c' e) ts
| m_paren e ts : means en (FExpr 1 e) ts -> means en (FExpr 10 e) (paren ts)
| m_subquery q tq : means en (FQuery q) tq -> means en (FExpr 10 q) (paren tq)
(** [booleanExpression] 450-455, convert.py 329-344 *)
| m_or l tl x r tr : means en (FExpr 1 l) tl -> means en (FExpr 2 r) tr -> buildable (NBin BOr l r) ->
    means en (FExpr 1 (NBin BOr l r)) (tl ++ TKw "OR" x :: tr)
| m_and l tl x r tr : means en (FExpr 2 l) tl -> means en (FExpr 3 r) tr -> buildable (NBin BAnd l r) ->
    means en (FExpr 2 (NBin BAnd l r)) (tl ++ TKw "AND" x :: tr)
| m_not x e te : means en (FExpr 3 e) te -> buildable (NUn UNot e) -> means en (FExpr 3 (NUn UNot e)) (TKw "NOT" x :: te)
(** [predicate] 457-467, convert.py 359-430 *)
| m_compare op s l tl r tr :
    In (op, s) [(BEq, "="); (BNe, "<>"); (BLt, "<"); (BLe, "<="); (BGt, ">"); (BGe, ">=")] ->
    means en (FExpr 5 l) tl -> means en (FExpr 5 r) tr -> buildable (NBin op l r) ->
    means en (FExpr 4 (NBin op l r)) (tl ++ TSym s :: tr)
| m_between neg tn v tv x a ta y b tb :
    negation neg tn -> means en (FExpr 5 v) tv -> means en (FExpr 5 a) ta -> means en (FExpr 5 b) tb ->
    buildable (NBetween v a b) ->
    means en (FExpr 4 (negated neg (NBetween v a b))) (tv ++ tn ++ TKw "BETWEEN" x :: ta ++ TKw "AND" y :: tb)
| m_in neg tn v tv x l tl :
    negation neg tn -> means en (FExpr 5 v) tv -> means en (FExprs l) tl -> buildable (NInList v l) ->
    means en (FExpr 4 (negated neg (NInList v l))) (tv ++ tn ++ TKw "IN" x :: paren tl)
| m_in_query neg tn v tv x q tq :
    negation neg tn -> means en (FExpr 5 v) tv -> means en (FQuery q) tq -> buildable (NInQuery v q) ->
    means en (FExpr 4 (negated neg (NInQuery v q))) (tv ++ tn ++ TKw "IN" x :: paren tq)
| m_like neg tn v tv x p tp o to :
    negation neg tn -> means en (FExpr 5 v) tv -> means en (FExpr 5 p) tp -> means en (FClause "ESCAPE" 5 o) to ->
    buildable (NLike v p o) ->
    means en (FExpr 4 (negated neg (NLike v p o))) (tv ++ tn ++ TKw "LIKE" x :: tp ++ to)
| m_null neg tn v tv x y : negation neg tn -> means en (FExpr 5 v) tv -> buildable (NUn UIsNull v) ->
    means en (FExpr 4 (negated neg (NUn UIsNull v))) (tv ++ TKw "IS" x :: tn ++ [TKw "NULL" y])
| m_distinct neg tn l tl x y z r tr : negation neg tn -> means en (FExpr 5 l) tl -> means en (FExpr 5 r) tr ->
    buildable (NBin BDistinct l r) ->
    means en (FExpr 4 (negated neg (NBin BDistinct l r)))
      (tl ++ TKw "IS" x :: tn ++ TKw "DISTINCT" y :: TKw "FROM" z :: tr)
(** [valueExpression] 469-476, convert.py 432-457; AT TIME ZONE has no visitor, so
    its value is that of the interval *)
| m_concat l tl r tr : means en (FExpr 5 l) tl -> means en (FExpr 6 r) tr -> buildable (NFunc FConcatenate [l; r] no_fopts) ->
    means en (FExpr 5 (NFunc FConcatenate [l; r] no_fopts)) (tl ++ TSym "||" :: tr)
| m_sum op s l tl r tr : In (op, s) [(BAdd, "+"); (BMinus, "-")] ->
    means en (FExpr 6 l) tl -> means en (FExpr 7 r) tr -> buildable (NBin op l r) ->
    means en (FExpr 6 (NBin op l r)) (tl ++ TSym s :: tr)
| m_product op s l tl r tr : In (op, s) [(BMul, "*"); (BDiv, "/"); (BMod, "%")] ->
    means en (FExpr 7 l) tl -> means en (FExpr 8 r) tr -> buildable (NBin op l r) ->
    means en (FExpr 7 (NBin op l r)) (tl ++ TSym s :: tr)
| m_minus e te : means en (FExpr 8 e) te -> no_number te = true -> buildable (NUn UNeg e) ->
    means en (FExpr 8 (NUn UNeg e)) (TSym "-" :: te)
| m_plus e te : means en (FExpr 8 e) te -> buildable (NUn UPos e) -> means en (FExpr 8 (NUn UPos e)) (TSym "+" :: te)
| m_zone l tl x y z w e te : means en (FExpr 9 l) tl -> interval e te ->
    means en (FExpr 9 e) (tl ++ TKw "AT" x :: TKw "TIME" y :: TKw "ZONE" z :: TKw "INTERVAL" w :: te)
(** literals 479-486, convert.py 669-778 *)
| m_null_literal x : means en (FExpr 10 (NLit LNone unknown)) [TKw "NULL" x]
| m_true x : means en (FExpr 10 (NLit (LBool true) (TSimple SBoolean))) [TKw "TRUE" x]
| m_false x : means en (FExpr 10 (NLit (LBool false) (TSimple SBoolean))) [TKw "FALSE" x]
| m_integer s : let z := Z.of_N (digits 0 s) in means en (FExpr 10 (NLit (LInt z) (int_type z))) [TInt s]
| m_minus_integer s : let z := (- Z.of_N (digits 0 s))%Z in
    means en (FExpr 10 (NLit (LInt z) (int_type z))) [TSym "-"; TInt s]
| m_decimal s d t : decimal_text s d -> infer_decimal d = Ok t -> buildable (NLit (LDec d) t) ->
    means en (FExpr 10 (NLit (LDec d) t)) [TDec s]
| m_minus_decimal s d t : decimal_text s d -> infer_decimal d = Ok t -> buildable (NLit (LDec (dec_neg d)) t) ->
    means en (FExpr 10 (NLit (LDec (dec_neg d)) t)) [TSym "-"; TDec s]
| m_double s : means en (FExpr 10 (NLit (LFloat (float_text_of false s)) (TSimple SDouble))) [TDbl s]
| m_minus_double s : means en (FExpr 10 (NLit (LFloat (float_text_of true s)) (TSimple SDouble))) [TSym "-"; TDbl s]
| m_string v ts : text v ts -> means en (FExpr 10 (NLit (LStr v) (TVarchar (Some (zlen v))))) ts
| m_interval x e te : interval e te -> means en (FExpr 10 e) (TKw "INTERVAL" x :: te)
| m_constructor n tn v tv : name n tn -> text v tv -> buildable (NTypeCtor v (upper n)) ->
    means en (FExpr 10 (NTypeCtor v (upper n))) (tn ++ tv)
(** columns 510-511, convert.py 611-620, 980 *)
| m_column n tn : name n tn -> means en (FExpr 10 (NField n TRNone unknown)) tn
| m_dot_column b r u tb n tn : means en (FExpr 10 (NField b r u)) tb -> r = TRNone \/ r = TRStr "" -> name n tn ->
    means en (FExpr 10 (NField n (TRStr b) unknown)) (tb ++ TSym "." :: tn)
| m_dot_nothing tb n tn : means en (FExpr 10 NNone) tb -> name n tn ->
    means en (FExpr 10 (NField n TRNone unknown)) (tb ++ TSym "." :: tn)
| m_dot_value b tb n tn : means en (FExpr 10 b) tb -> is_field b = false -> b <> NNone -> name n tn ->
    buildable (NField n (TRVal b) unknown) ->
    means en (FExpr 10 (NField n (TRVal b) unknown)) (tb ++ TSym "." :: tn)
(** rows, arrays, subscripts 489-490, 508-509, convert.py 866, 927, 933 *)
| m_tuple a b l tl : means en (FExprs (a :: b :: l)) tl -> buildable (NRow (a :: b :: l)) ->
    means en (FExpr 10 (NRow (a :: b :: l))) (paren tl)
| m_row x l tl : means en (FExprs l) tl -> buildable (NRow l) -> means en (FExpr 10 (NRow l)) (TKw "ROW" x :: paren tl)
| m_array x l tl : means en (FExprs l) tl -> buildable (NArray l) ->
    means en (FExpr 10 (NArray l)) (TKw "ARRAY" x :: TSym "[" :: tl ++ [TSym "]"])
| m_subscript v tv i ti : means en (FExpr 10 v) tv -> means en (FExpr 5 i) ti -> buildable (NSubscript v i) ->
    means en (FExpr 10 (NSubscript v i)) (tv ++ TSym "[" :: ti ++ [TSym "]"])
(** lambdas 499-500, convert.py 841 *)
| m_lambda_one n tn b tb b' : name n tn -> means en (FExpr 1 b) tb -> subst [n] b = Ok b' -> buildable (NLambda [n] b') ->
    means en (FExpr 10 (NLambda [n] b')) (tn ++ TSym "->" :: tb)
| m_lambda l tl b tb b' : (l = [] /\ tl = []) \/ name_list l tl -> means en (FExpr 1 b) tb -> subst l b = Ok b' ->
    buildable (NLambda l b') ->
    means en (FExpr 10 (NLambda l b')) (TSym "(" :: tl ++ TSym ")" :: TSym "->" :: tb)
(** CASE 505-506, convert.py 460-480 *)
| m_case x v tv l tl o to y : means en (FOperand v) tv -> means en (FWhens l) tl -> means en (FElse o) to ->
    buildable (NCase l o v) ->
    means en (FExpr 10 (NCase l o v)) (TKw "CASE" x :: tv ++ tl ++ to ++ [TKw "END" y])
| m_operand_none : means en (FOperand None) []
| m_operand e te : means en (FExpr 1 e) te -> means en (FOperand (kept e)) te
| m_else_none : means en (FElse None) []
| m_else x e te : means en (FExpr 1 e) te -> means en (FElse (Some e)) (TKw "ELSE" x :: te)
| m_when_one x a ta y b tb : means en (FExpr 1 a) ta -> means en (FExpr 1 b) tb ->
    means en (FWhens [(a, b)]) (TKw "WHEN" x :: ta ++ TKw "THEN" y :: tb)
| m_when x a ta y b tb l tl : means en (FExpr 1 a) ta -> means en (FExpr 1 b) tb -> means en (FWhens l) tl ->
    means en (FWhens ((a, b) :: l)) (TKw "WHEN" x :: ta ++ TKw "THEN" y :: tb ++ tl)
(** CAST 507-508, convert.py 483-490; NORMALIZE 525, convert.py 661 *)
| m_cast (try_ : bool) x e te y t tt : means en (FExpr 1 e) te -> type_means t tt -> buildable (NCast try_ e t) ->
    means en (FExpr 10 (NCast try_ e t))
      (TKw (if try_ then "TRY_CAST" else "CAST") x :: paren (te ++ TKw "AS" y :: tt))
| m_normalize x e te tf : means en (FExpr 5 e) te ->
    (tf = [] \/ exists k y, In k norm_forms /\ tf = [TSym ","; TKw k y]) -> buildable (NNormalize e None) ->
    means en (FExpr 10 (NNormalize e None)) (TKw "NORMALIZE" x :: paren (te ++ tf))
(** CURRENT_DATE and the like 512-520, convert.py 623-658 *)
| m_session k f x : In (k, f) session_words -> buildable (NFunc f [] no_fopts) ->
    means en (FExpr 10 (NFunc f [] no_fopts)) [TKw k x]
| m_now k f x : In k ("CURRENT_DATE" :: now_words) -> names_to_functions en (upper x) = Some f -> buildable (now f 3) ->
    means en (FExpr 10 (now f 3)) [TKw k x]
| m_now_precise k f x s : In k now_words -> names_to_functions en (upper x) = Some f -> buildable (now f (number s)) ->
    means en (FExpr 10 (now f (number s))) [TKw k x; TSym "("; TInt s; TSym ")"]
(** calls 494-497, convert.py 781-838 *)
| m_args_none : means en (FArgs []) []
| m_args q l tl : any_quantifier q -> means en (FExprs l) tl -> means en (FArgs l) (q ++ tl)
| m_call n t f l ta ob tob fi tf tr tn w tw :
    name n t -> names_to_functions en (upper n) = Some f ->
    means en (FArgs l) ta -> means en (FOrder ob) tob -> means en (FFilter fi) tf -> treatment tr tn -> means en (FOver w) tw ->
    (tob ++ tf ++ tn ++ tw <> [] -> is_aggregate f = true) -> (f = FFromUnixtime -> length l = 2 \/ length l = 3) ->
    buildable (NFunc f (arranged f l) (mkFopts ob fi w (ignores tr))) ->
    means en (FExpr 10 (NFunc f (arranged f l) (mkFopts ob fi w (ignores tr))))
      (t ++ TSym "(" :: ta ++ tob ++ TSym ")" :: tf ++ tn ++ tw)
| m_call_star n t f r ts fi tf w tw :
    name n t -> names_to_functions en (upper n) = Some f ->
    (r = TRNone /\ ts = [TSym "*"]) \/ (exists a ta, name a ta /\ r = TRStr a /\ ts = ta ++ [TSym "."; TSym "*"]) ->
    means en (FFilter fi) tf -> means en (FOver w) tw -> (tf ++ tw <> [] -> is_aggregate f = true) -> f <> FFromUnixtime ->
    buildable (NFunc f [NStar r unknown] (mkFopts [] fi w false)) ->
    means en (FExpr 10 (NFunc f [NStar r unknown] (mkFopts [] fi w false))) (t ++ TSym "(" :: ts ++ TSym ")" :: tf ++ tw)
| m_filter_none : means en (FFilter None) []
| m_filter x y e te : means en (FExpr 1 e) te ->
    means en (FFilter (kept e)) (TKw "FILTER" x :: TSym "(" :: TKw "WHERE" y :: te ++ [TSym ")"])
| m_listagg x q v tv sp tsp ov tov y z u w l tl :
    any_quantifier q -> means en (FExpr 1 v) tv -> separated sp tsp -> on_overflow ov tov ->
    means en (FMany (map FSort l)) tl -> buildable (NListAgg v sp ov l) ->
    means en (FExpr 10 (NListAgg v sp ov l))
      (TKw "LISTAGG" x :: TSym "(" :: q ++ tv ++ tsp ++ tov ++ TSym ")" :: TKw "WITHIN" y :: TKw "GROUP" z
       :: TSym "(" :: TKw "ORDER" u :: TKw "BY" w :: tl ++ [TSym ")"])
(** alternatives without a visitor: 486, 488, 503, 521-528, 331-335 *)
| m_binary s : means en (FExpr 10 NNone) [TBinary s]
| m_exists x q tq : means en (FQuery q) tq -> means en (FExpr 10 NNone) (TKw "EXISTS" x :: paren tq)
| m_position x a ta y b tb : means en (FExpr 5 a) ta -> means en (FExpr 5 b) tb ->
    means en (FExpr 10 NNone) (TKw "POSITION" x :: paren (ta ++ TKw "IN" y :: tb))
| m_trim x a ta : means en (FExpr 5 a) ta -> means en (FExpr 10 NNone) (TKw "TRIM" x :: paren ta)
| m_trim_comma x a ta b tb : means en (FExpr 5 a) ta -> means en (FExpr 5 b) tb ->
    means en (FExpr 10 NNone) (TKw "TRIM" x :: paren (ta ++ TSym "," :: tb))
| m_trim_from x ts y b tb : trim_part ts -> means en (FExpr 5 b) tb ->
    means en (FExpr 10 NNone) (TKw "TRIM" x :: paren (ts ++ TKw "FROM" y :: tb))
| m_trim_chars x ts a ta y b tb : trim_part ts -> means en (FExpr 5 a) ta -> means en (FExpr 5 b) tb ->
    means en (FExpr 10 NNone) (TKw "TRIM" x :: paren (ts ++ ta ++ TKw "FROM" y :: tb))
| m_substring x a ta y b tb : means en (FExpr 5 a) ta -> means en (FExpr 5 b) tb ->
    means en (FExpr 10 NNone) (TKw "SUBSTRING" x :: paren (ta ++ TKw "FROM" y :: tb))
| m_substring_for x a ta y b tb z c tc : means en (FExpr 5 a) ta -> means en (FExpr 5 b) tb -> means en (FExpr 5 c) tc ->
    means en (FExpr 10 NNone) (TKw "SUBSTRING" x :: paren (ta ++ TKw "FROM" y :: tb ++ TKw "FOR" z :: tc))
| m_extract x n tn y e te : name n tn -> means en (FExpr 5 e) te ->
    means en (FExpr 10 NNone) (TKw "EXTRACT" x :: paren (tn ++ TKw "FROM" y :: te))
| m_grouping x ts : ts = [] \/ paths ts -> means en (FExpr 10 NNone) (TKw "GROUPING" x :: paren ts)
| m_json k x h ts : In h (json_shapes k) -> means en (FSkim h) ts -> means en (FExpr 10 NNone) (TKw k x :: paren ts)

(** ** What is visited and not kept: 408-444, 529-606.  The right-hand sides of these
    rules of the grammar are written as shapes; C66 has them as rules. *)
| m_skim_none : means en (FSkim HNil) []
| m_skim_word k x : means en (FSkim (HKw k)) [TKw k x]
| m_skim_sign s : In s [","; ":"; "=>"] -> means en (FSkim (HSym s)) [TSym s]
| m_skim_expr e te : means en (FExpr 1 e) te -> means en (FSkim HExpr) te
| m_skim_type p r ts : syntax (TType p) ts -> visit_type p = Ok r -> means en (FSkim HType) ts
| m_skim_text v tv : text v tv -> means en (FSkim HText) tv
| m_skim_name n tn : name n tn -> means en (FSkim HName) tn
| m_skim_path l ts : path l ts -> means en (FSkim HPath) ts
| m_skim_sort o ts : means en (FSort o) ts -> means en (FSkim HSort) ts
| m_skim_query q tq : means en (FQuery q) tq -> means en (FSkim HQuery) tq
| m_skim_ends : means en (FSkim HEnds) []
| m_skim_paren h ts : means en (FSkim h) ts -> means en (FSkim (HParen h)) (paren ts)
| m_skim_then a ta b tb : means en (FSkim a) ta -> means en (FSkim b) tb -> means en (FSkim (HThen a b)) (ta ++ tb)
| m_skim_absent a : means en (FSkim (HMaybe a)) []
| m_skim_present a ta : means en (FSkim a) ta -> means en (FSkim (HMaybe a)) ta
| m_skim_left a b ta : means en (FSkim a) ta -> means en (FSkim (HEither a b)) ta
| m_skim_right a b tb : means en (FSkim b) tb -> means en (FSkim (HEither a b)) tb
| m_skim_one a ta : means en (FSkim a) ta -> means en (FSkim (HCommas a)) ta
| m_skim_more a ta tl : means en (FSkim a) ta -> means en (FSkim (HCommas a)) tl ->
    means en (FSkim (HCommas a)) (ta ++ TSym "," :: tl)

(** ** Clauses with an expression *)
| m_no_clause k c : means en (FClause k c None) []
| m_clause k c x e te : means en (FExpr c e) te -> means en (FClause k c (kept e)) (TKw k x :: te)

(** ** Order 244-246, convert.py 264-276 *)
| m_sort e te d td f tf : means en (FExpr 1 e) te -> direction d td -> nulls f tf ->
    means en (FSort (mkOrder e d f)) (te ++ td ++ tf)
| m_order_none : means en (FOrder []) []
| m_order x y l tl : means en (FMany (map FSort l)) tl -> means en (FOrder l) (TKw "ORDER" x :: TKw "BY" y :: tl)

(** ** Windows 277-282, 692-720, convert.py 1202-1266 *)
| m_unbounded d x y : means en (FBound (BUnbounded d)) [TKw "UNBOUNDED" x; TKw (side d) y]
| m_current x y : means en (FBound BCurrent) [TKw "CURRENT" x; TKw "ROW" y]
| m_bounded d e te y : means en (FExpr 1 e) te -> means en (FBound (BBounded d e)) (te ++ [TKw (side d) y])
| m_frame_none : means en (FFrame FTRange (BUnbounded false) BCurrent) []
| m_frame f x s ts : means en (FBound s) ts -> means en (FFrame f s BCurrent) (TKw (frame_text f) x :: ts)
| m_frame_between f x y s ts z e te : means en (FBound s) ts -> means en (FBound e) te ->
    means en (FFrame f s e) (TKw (frame_text f) x :: TKw "BETWEEN" y :: ts ++ TKw "AND" z :: te)
| m_partition_none : means en (FPartition []) []
| m_partition x y l tl : means en (FExprs l) tl -> means en (FPartition l) (TKw "PARTITION" x :: TKw "BY" y :: tl)
| m_window p tp ps tps ob tob f s e tf :
    (p = None /\ tp = []) \/ (exists n, p = Some n /\ name n tp) ->
    means en (FPartition ps) tps -> means en (FOrder ob) tob -> means en (FFrame f s e) tf ->
    means en (FWindow (mkWindow p ob ps f s e)) (tp ++ tps ++ tob ++ tf)
| m_over_none : means en (FOver None) []
| m_over x w tw : means en (FWindow w) tw -> means en (FOver (Some w)) (TKw "OVER" x :: paren tw)
| m_over_name x n tn : name n tn -> means en (FOver (Some (named_window n))) (TKw "OVER" x :: tn)

(** ** Select items 293-297, convert.py 945-952, 1000-1016 *)
| m_item e te : means en (FExpr 1 e) te -> means en (FItem e) te
| m_item_alias e te a ta : means en (FExpr 1 e) te -> as_name a ta -> buildable (NAliased e a) ->
    means en (FItem (NAliased e a)) (te ++ ta)
| m_item_star : means en (FItem (NStar TRNone unknown)) [TSym "*"]
| m_item_all b tb : means en (FExpr 10 b) tb -> buildable (NStar (starred b) unknown) ->
    means en (FItem (NStar (starred b) unknown)) (tb ++ [TSym "."; TSym "*"])
| m_item_all_names b tb x l tl : means en (FExpr 10 b) tb -> name_list l tl ->
    buildable (NAliasedStar (NStar (starred b) unknown) l) ->
    means en (FItem (NAliasedStar (NStar (starred b) unknown) l)) (tb ++ TSym "." :: TSym "*" :: TKw "AS" x :: paren tl)

(** ** Grouping 257-271, convert.py 1156-1193 *)
| m_set_one e te : means en (FExpr 1 e) te -> means en (FSet [e]) te
| m_set_none : means en (FSet []) (paren [])
| m_set l tl : means en (FExprs l) tl -> means en (FSet l) (paren tl)
| m_group_set l ts : means en (FSet l) ts -> means en (FGroup (GSet l)) ts
| m_rollup x l tl : means en (FExprs l) tl -> means en (FGroup (GRollup l)) (TKw "ROLLUP" x :: paren tl)
| m_cube x l tl : means en (FExprs l) tl -> means en (FGroup (GCube l)) (TKw "CUBE" x :: paren tl)
| m_sets x y l tl : means en (FMany (map FSet l)) tl ->
    means en (FGroup (GSets l)) (TKw "GROUPING" x :: TKw "SETS" y :: paren tl)
| m_groupby_none : means en (FGroupBy None) []
| m_groupby x y d tq l tl : quant false d tq -> means en (FMany (map FGroup l)) tl ->
    means en (FGroupBy (Some (mkG l d))) (TKw "GROUP" x :: TKw "BY" y :: tq ++ tl)

(** ** Relations 299-331, 395-412, convert.py 1019-1153 *)
| m_rel_tighter c c' r ts : c' <= c -> means en (FRel c r) ts -> means en (FRel c' r) ts
| m_table l ts t : path l ts -> table_of l t -> means en (FRel 3 t) ts
| m_rel_query q tq : means en (FQuery q) tq -> means en (FRel 3 q) (paren tq)
| m_rel_paren r ts : means en (FRel 0 r) ts -> means en (FRel 3 r) (paren ts)
| m_lateral x q tq : means en (FQuery q) tq -> buildable (NLateral q) -> means en (FRel 3 (NLateral q)) (TKw "LATERAL" x :: paren tq)
| m_unnest x l tl : means en (FExprs l) tl -> buildable (NUnnest l false) ->
    means en (FRel 3 (NUnnest l false)) (TKw "UNNEST" x :: paren tl)
| m_unnest_with x l tl y z : means en (FExprs l) tl -> buildable (NUnnest l true) ->
    means en (FRel 3 (NUnnest l true)) (TKw "UNNEST" x :: paren tl ++ [TKw "WITH" y; TKw "ORDINALITY" z])
| m_table_function x ts : means en (FSkim h_table_call) ts -> means en (FRel 3 NNone) (TKw "TABLE" x :: paren ts)
| m_rel_alias r ts a ta l tl : means en (FRel 3 r) ts -> as_name a ta -> cols l tl -> buildable (NAliasedRel r a l) ->
    means en (FRel 2 (NAliasedRel r a l)) (ts ++ ta ++ tl)
| m_sample r ts x k st p tp : means en (FRel 2 r) ts -> In k ["BERNOULLI"; "SYSTEM"] -> means en (FExpr 1 p) tp ->
    buildable (NSample r st p) ->
    means en (FRel 1 (NSample r st p)) (ts ++ TKw "TABLESAMPLE" x :: TKw k (sample_text st) :: paren tp)
| m_cross l tl x y r tr : means en (FRel 0 l) tl -> means en (FRel 1 r) tr -> buildable (NJoin l r JCross false None) ->
    means en (FRel 0 (NJoin l r JCross false None)) (tl ++ TKw "CROSS" x :: TKw "JOIN" y :: tr)
| m_natural l tl x jt tj y r tr : means en (FRel 0 l) tl -> join_kind jt tj -> means en (FRel 1 r) tr ->
    buildable (NJoin l r jt true None) ->
    means en (FRel 0 (NJoin l r jt true None)) (tl ++ TKw "NATURAL" x :: tj ++ TKw "JOIN" y :: tr)
| m_join l tl jt tj y r tr c tc : means en (FRel 0 l) tl -> join_kind jt tj -> means en (FRel 0 r) tr ->
    means en (FCriteria c) tc -> buildable (NJoin l r jt false (Some c)) ->
    means en (FRel 0 (NJoin l r jt false (Some c))) (tl ++ tj ++ TKw "JOIN" y :: tr ++ tc)
| m_on x e te : means en (FExpr 1 e) te -> means en (FCriteria (JOn e)) (TKw "ON" x :: te)
| m_using x l tl : name_list l tl -> means en (FCriteria (JUsing l)) (TKw "USING" x :: paren tl)

(** ** Queries 174-255, 273-286, convert.py 195-326, 1196, 1269-1304 *)
| m_from_none : means en (FFrom None) []
| m_from x r tr : means en (FRel 0 r) tr -> means en (FFrom (kept r)) (TKw "FROM" x :: tr)
| m_windef n tn x w tw : name n tn -> means en (FWindow w) tw -> means en (FWindef (n, w)) (tn ++ TKw "AS" x :: paren tw)
| m_windows_none : means en (FWindows []) []
(* a later definition of the same name replaces an earlier one *)
| m_windows x l tl : means en (FMany (map FWindef l)) tl -> means en (FWindows (dict_of l)) (TKw "WINDOW" x :: tl)
| m_select x d tq l tl fr tfr wh twh gb tgb hv thv ws tws :
    quant false d tq -> means en (FMany (map FItem l)) tl -> means en (FFrom fr) tfr ->
    means en (FClause "WHERE" 1 wh) twh -> means en (FGroupBy gb) tgb ->
    means en (FClause "HAVING" 1 hv) thv -> means en (FWindows ws) tws ->
    buildable (NSelect l fr wh gb hv d ws no_qattrs) ->
    means en (FTerm 3 (NSelect l fr wh gb hv d ws no_qattrs))
      (TKw "SELECT" x :: tq ++ tl ++ tfr ++ twh ++ tgb ++ thv ++ tws)
| m_table_query x l tl t : path l tl -> table_of l t -> means en (FTerm 3 (NTableQuery t no_qattrs)) (TKw "TABLE" x :: tl)
| m_values x l tl : means en (FExprs l) tl -> buildable (NValues l no_qattrs) ->
    means en (FTerm 3 (NValues l no_qattrs)) (TKw "VALUES" x :: tl)
(* '(' queryNoWith ')' has no visitor *)
| m_hidden q tq : means en (FBody q) tq -> means en (FTerm 3 NNone) (paren tq)
| m_term_tighter c c' q ts : c' <= c -> means en (FTerm c q) ts -> means en (FTerm c' q) ts
| m_set_op op l tl x d tq r tr : means en (FTerm (op_tight op) l) tl -> quant true d tq ->
    means en (FTerm (S (op_tight op)) r) tr -> buildable (NSetQuery op l r d no_qattrs) ->
    means en (FTerm (op_tight op) (NSetQuery op l r d no_qattrs)) (tl ++ TKw (op_text op) x :: tq ++ tr)
| m_body q tq ob tob off tof lim tlm :
    means en (FTerm 0 q) tq -> means en (FOrder ob) tob -> offset_of off tof -> limit_of lim tlm ->
    (q = NNone -> ob = [] /\ off = None /\ lim = None) ->
    means en (FBody (dressed (mkQ [] ob off (given None lim)) q)) (tq ++ tob ++ tof ++ tlm)
| m_named n tn l tl x q tq : name n tn -> cols l tl -> means en (FQuery q) tq -> buildable (NAliasedRel q n l) ->
    means en (FNamed (NAliasedRel q n l)) (tn ++ tl ++ TKw "AS" x :: paren tq)
| m_query q tq : means en (FBody q) tq -> means en (FQuery q) tq
| m_query_with x ws tw q tq a : means en (FMany (map FNamed ws)) tw -> means en (FBody q) tq -> attrs_of q = Some a ->
    means en (FQuery (dressed (mkQ ws (q_orderby a) (q_offset a) (q_limit a)) q)) (TKw "WITH" x :: tw ++ tq).
