(** Property theorems C55: what reading does not depend on: white space,
    comments, the case of reserved words, quotes around names. *)
From Coq Require Import String Ascii List Bool ZArith NArith Arith Lia.
From Verif Require Import PyStr StrFacts Printer Types Conversions Inference Lexer LexFacts ReadsFacts
  TypeParser Functions Ast Sql Tokens SqlReads Parser ParseExpr ParseRel Good GoodFacts ParseWhole
  TextFacts PropertiesLiterals PropertiesRoundTrip Spelling SpellFacts GapFacts.
Import ListNotations.
Open Scope nat_scope.
Open Scope string_scope.

(** C55.  All texts: nothing is assumed about them except that their tokens are
    the same up to spelling. *)
Theorem C55_query : forall en s s',
  same_spelling s s' -> query_from_sql en s = query_from_sql en s'.
Proof.
  intros en s s' H. unfold query_from_sql.
  rewrite <- (query_norm en (lex s)), <- (query_norm en (lex s')). now rewrite H.
Qed.
Print Assumptions C55_query.
Theorem C55_expression : forall en s s',
  same_spelling s s' -> expression_from_sql en s = expression_from_sql en s'.
Proof.
  intros en s s' H. unfold expression_from_sql.
  rewrite <- (expression_norm en (lex s)), <- (expression_norm en (lex s')). now rewrite H.
Qed.
Print Assumptions C55_expression.
Theorem C55_type : forall s s', same_spelling s s' -> type_from_sql s = type_from_sql s'.
Proof.
  intros s s' H. unfold type_from_sql.
  rewrite <- (type_norm (lex s)), <- (type_norm (lex s')). now rewrite H.
Qed.
Print Assumptions C55_type.

Example C55_case_query :
  same_spelling
    "SELECT ""t"".""a"", ""b"" AS ""c"" FROM ""t"" WHERE ""a"" IN (1, 2) AND NOT ""b"" IS NULL"
    ("select t . a,b as c -- the last one" ++ nls
     ++ "from/* a table */t where ""a"" in(1,2)and not b is null -- end")
  /\ is_ok (query_from_sql full_env
       "SELECT ""t"".""a"", ""b"" AS ""c"" FROM ""t"" WHERE ""a"" IN (1, 2) AND NOT ""b"" IS NULL") = true.
Proof. split; vm_compute; reflexivity. Qed.
Example C55_case_expression :
  same_spelling "CASE WHEN ""a"" THEN CURRENT_TIMESTAMP ELSE CAST(""b"" AS ""bigint"") END"
                "case when a then current_timestamp else cast(b as bigint) end"
  /\ is_ok (expression_from_sql full_env "case when a then current_timestamp else cast(b as bigint) end") = true.
Proof. split; vm_compute; reflexivity. Qed.
Example C55_case_type :
  same_spelling "map(""bigint"",decimal ( 3 ,1 ))" "map(bigint, decimal(3, 1))"
  /\ is_ok (type_from_sql "map(bigint, decimal(3, 1))") = true.
Proof. split; vm_compute; reflexivity. Qed.

(** Any two ways of writing down the same tokens. *)
Theorem C55_layout : forall en ts ts' s s',
  written ts s -> written ts' s' -> map norm ts = map norm ts' ->
  query_from_sql en s = query_from_sql en s'
  /\ expression_from_sql en s = expression_from_sql en s'
  /\ type_from_sql s = type_from_sql s'.
Proof.
  intros en ts ts' s s' H H' E. apply written_lex in H, H'.
  assert (S : same_spelling s s') by (unfold same_spelling; now rewrite H, H').
  split; [now apply C55_query|]. split; [now apply C55_expression | now apply C55_type].
Qed.
Print Assumptions C55_layout.

(** However the tokens of a query (an expression) are written, they read as
    that query (expression); cf. C17, C20. *)
Theorem C55_written_query : forall en q ts s,
  good en [] q -> is_q q = true ->
  written ts s -> map norm ts = map norm (toks q) -> query_from_sql en s = Ok q.
Proof.
  intros en q ts s G Q W E. apply written_lex in W. unfold query_from_sql.
  rewrite W, <- query_norm, E, query_norm.
  rewrite <- (app_nil_r (toks q)). now apply query_tokens.
Qed.
Print Assumptions C55_written_query.
Theorem C55_written_expression : forall en e ts s,
  good en [] e -> is_expr e = true ->
  written ts s -> map norm ts = map norm (toks e) -> expression_from_sql en s = Ok e.
Proof.
  intros en e ts s G Q W E. apply written_lex in W. unfold expression_from_sql.
  rewrite W, <- expression_norm, E, expression_norm. now apply expression_tokens.
Qed.
Print Assumptions C55_written_expression.
(** The same, starting from the printed text. *)
Theorem C55_respelled_query : forall en q o s s',
  lexable q -> good en [] q -> is_q q = true -> ospaces o < 80 ->
  to_sql o q = Ok s -> same_spelling s s' -> query_from_sql en s' = Ok q.
Proof.
  intros en q o s s' L G Q O S E. rewrite <- (C55_query en s s' E).
  destruct (C20_query_round_trip en q o L G Q O) as (s1 & S1 & R). congruence.
Qed.
Print Assumptions C55_respelled_query.
Theorem C55_respelled_expression : forall en e o s s',
  lexable e -> good en [] e -> is_expr e = true -> ospaces o < 80 ->
  to_sql o e = Ok s -> same_spelling s s' -> expression_from_sql en s' = Ok e.
Proof.
  intros en e o s s' L G Q O S E. rewrite <- (C55_expression en s s' E).
  destruct (C17_expression_round_trip en e o L G Q O) as (s1 & S1 & R). congruence.
Qed.
Print Assumptions C55_respelled_expression.

Local Definition q1 : node :=
  NSelect [NField "a" (TRStr "t") unknown; NLit (LInt 10) (infer_integral 10)]
          (Some (NTable "t" None None)) (Some (NBin BLe (column "a") (text_literal "x -- y")))
          None None false [] no_qattrs.
Local Definition tokens1 : list token :=
  [TKw "SELECT" "select"; TId "t"; TSym "."; TQuoted """a"""; TSym ","; TInt "10"; TKw "FROM" "FROM";
   TId "t"; TKw "WHERE" "where"; TId "a"; TSym "<="; TString "'x -- y'"].
Local Definition text1 : string :=
  "select t.""a"",10/* ten */FROM t -- the table" ++ nls ++ "where a<='x -- y'".
Local Lemma written1 : written tokens1 text1.
Proof.
  unfold tokens1, text1, nls. cbn [append].
  apply (wr_token "" (word_token "select") "select"); [constructor | now apply lx_word |].
  apply (wr_token " " (word_token "t") "t"); [repeat constructor | now apply lx_word |].
  apply (wr_token "" _ "."); [constructor | now apply lx_sym |].
  apply (wr_token "" _ """a"""); [constructor | now apply (lx_name "a") |].
  apply (wr_token "" _ ","); [constructor | now apply lx_sym |].
  apply (wr_token "" _ "10"); [constructor | now apply lx_int |].
  apply (wr_token "/* ten */" (word_token "FROM") "FROM");
    [apply (gap_block " ten "); [reflexivity | constructor] | now apply lx_word |].
  apply (wr_token " " (word_token "t") "t"); [repeat constructor | now apply lx_word |].
  apply (wr_token (" -- the table" ++ nls) (word_token "where") "where");
    [apply (gap_blank " "); [reflexivity|]; apply (gap_line " the table" nls); [reflexivity | now left | constructor]
    | now apply lx_word |].
  apply (wr_token " " (word_token "a") "a"); [repeat constructor | now apply lx_word |].
  apply (wr_token "" _ "<="); [constructor | now apply lx_sym |].
  apply (wr_token "" _ "'x -- y'"); [constructor | now apply (lx_text "x -- y") |].
  apply wr_end. constructor.
Qed.
Local Lemma q1_good : good full_env [] q1.
Proof. apply (good_dec full_env 5). vm_compute. reflexivity. Qed.
Example C55_case_written :
  written tokens1 text1 /\ map norm tokens1 = map norm (toks q1)
  /\ query_from_sql full_env text1 = Ok q1.
Proof.
  assert (E : map norm tokens1 = map norm (toks q1)) by (vm_compute; reflexivity).
  split; [exact written1|]. split; [exact E|].
  exact (C55_written_query full_env q1 tokens1 text1 q1_good eq_refl written1 E).
Qed.

(** DISTINCT is the one reserved word whose case matters (convert.py 323-326). *)
Theorem C55_distinct_refuted :
  query_from_sql full_env "select DISTINCT a from t"
    = Ok (NSelect [column "a"] (Some (NTable "t" None None)) None None None true [] no_qattrs)
  /\ query_from_sql full_env "select distinct a from t" = Err KeyError.
Proof. split; vm_compute; reflexivity. Qed.
Print Assumptions C55_distinct_refuted.
(** So does the case of ALL and of the sample types, which could be names. *)
Theorem C55_soft_words_refuted :
  query_from_sql full_env "select a from t limit ALL"
    = Ok (NSelect [column "a"] (Some (NTable "t" None None)) None None None false [] no_qattrs)
  /\ query_from_sql full_env "select a from t limit all" = Err AssertionError
  /\ is_ok (query_from_sql full_env "select a from t tablesample BERNOULLI (10)") = true
  /\ query_from_sql full_env "select a from t tablesample bernoulli (10)" = Err KeyError.
Proof. split; [|split; [|split]]; vm_compute; reflexivity. Qed.
Print Assumptions C55_soft_words_refuted.
(** A word in mixed case is no keyword at all. *)
Theorem C55_mixed_case_refuted :
  is_ok (query_from_sql full_env "select 1") = true
  /\ query_from_sql full_env "Select 1" = Err SyntaxErr.
Proof. split; vm_compute; reflexivity. Qed.
Print Assumptions C55_mixed_case_refuted.
