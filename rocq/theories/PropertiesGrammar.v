(** Property theorems C59: what the rules of the grammar derive is what is read. *)
From Coq Require Import String Ascii List Bool ZArith NArith Arith Lia.
From Verif Require Import PyStr StrFacts Printer Types Conversions Inference Lexer LexFacts ReadsFacts
  TypeParser TypeRoundTrip Functions Ast Sql Tokens SqlReads Parser ParseExpr ParseRel Good GoodFacts ParseWhole
  TextFacts PropertiesLiterals PropertiesRoundTrip Spelling SpellFacts GapFacts PropertiesSpelling
  ParseForms Grammar GrammarFacts.
Import ListNotations.
Open Scope nat_scope.
Open Scope string_scope.

(** From tokens to results. *)
Lemma expression_derived en c e ts : derives en (PExpr c e) ts -> expression_of_tokens en ts = Ok e.
Proof.
  intro D. apply sound in D. destruct D as (c' & _ & _ & E). unfold expression_of_tokens.
  pose proof (ex_rd en _ _ _ (parse_fuel ts) E) as R.
  assert (L : 8 * length ts + 4 <= parse_fuel ts) by (unfold parse_fuel; lia).
  specialize (R L []). rewrite app_nil_r in R. rewrite R by reflexivity. reflexivity.
Qed.
Lemma query_derived en q ts rest :
  derives en (PQuery q) ts -> qend rest = true -> query_of_tokens en (ts ++ rest) = Ok q.
Proof.
  intros D Q. apply sound in D. destruct D as [R _]. unfold query_of_tokens.
  rewrite (rq_read _ _ _ R); [reflexivity| |exact Q]. unfold parse_fuel. rewrite app_length. lia.
Qed.

(** C59.  However the tokens are written (white space, comments, the case of
    reserved words, quotes around names), the text is read as the object that the
    rules give to them. *)
Theorem C59_expression : forall en c e ts ts' s,
  derives en (PExpr c e) ts -> written ts' s -> map norm ts' = map norm ts -> expression_from_sql en s = Ok e.
Proof.
  intros en c e ts ts' s D W E. apply written_lex in W. unfold expression_from_sql.
  rewrite W, <- expression_norm, E, expression_norm. now apply (expression_derived en c).
Qed.
Print Assumptions C59_expression.
Theorem C59_query : forall en q ts ts' s,
  derives en (PQuery q) ts -> written ts' s -> map norm ts' = map norm ts -> query_from_sql en s = Ok q.
Proof.
  intros en q ts ts' s D W E. apply written_lex in W. unfold query_from_sql.
  rewrite W, <- query_norm, E, query_norm. rewrite <- (app_nil_r ts). now apply query_derived.
Qed.
Print Assumptions C59_query.
(** The same for the tokens that the lexer finds. *)
Theorem C59_lexed_expression : forall en c e ts s,
  derives en (PExpr c e) ts -> map norm (lex s) = map norm ts -> expression_from_sql en s = Ok e.
Proof.
  intros en c e ts s D E. unfold expression_from_sql. rewrite <- expression_norm, E, expression_norm.
  now apply (expression_derived en c).
Qed.
Print Assumptions C59_lexed_expression.
Theorem C59_lexed_query : forall en q ts s,
  derives en (PQuery q) ts -> map norm (lex s) = map norm ts -> query_from_sql en s = Ok q.
Proof.
  intros en q ts s D E. unfold query_from_sql. rewrite <- query_norm, E, query_norm.
  rewrite <- (app_nil_r ts). now apply query_derived.
Qed.
Print Assumptions C59_lexed_query.
(** So the rules are not ambiguous: what is written in one way only means one thing. *)
Theorem C59_one_expression : forall en c c' e e' ts ts',
  derives en (PExpr c e) ts -> derives en (PExpr c' e') ts' -> map norm ts = map norm ts' -> e = e'.
Proof.
  intros en c c' e e' ts ts' D D' E. apply expression_derived in D, D'.
  rewrite <- expression_norm in D, D'. rewrite E in D. congruence.
Qed.
Print Assumptions C59_one_expression.
Theorem C59_one_query : forall en q q' ts ts',
  derives en (PQuery q) ts -> derives en (PQuery q') ts' -> map norm ts = map norm ts' -> q = q'.
Proof.
  intros en q q' ts ts' D D' E.
  pose proof (query_derived en q ts [] D eq_refl) as R. pose proof (query_derived en q' ts' [] D' eq_refl) as R'.
  rewrite app_nil_r in R, R'. rewrite <- query_norm in R, R'. rewrite E in R. congruence.
Qed.
Print Assumptions C59_one_query.

(** * Cases *)
Ltac val := eexists; vm_compute; reflexivity.
Ltac name := eapply (d_tighter _ 9); [lia | apply d_column || apply d_qualified].
Ltac w x := exists x; reflexivity.
Ltac at_ n := eapply (d_tighter _ n); [lia|].
Local Definition text_expr : string :=
  "a||""b c"" || 'x' = c[2] and /* - */ not d NOT between -1 AND cast(.5 as BIGINT)".
Local Definition expr1 : node :=
  NBin BAnd
    (NBin BEq (NFunc FConcatenate [NFunc FConcatenate [column "a"; column "b c"] no_fopts; text_literal "x"] no_fopts)
       (NSubscript (column "c") (NLit (LInt 2) (TSimple SInteger))))
    (NUn UNot (NUn UNot (NBetween (column "d") (NLit (LInt (-1)) (TSimple SInteger))
       (NCast false (NLit (LDec (mkDec false 5 (-1))) (TDecimal 2 1)) (TSimple SBigint))))).
Local Lemma expr1_derived : exists ts, derives full_env (PExpr 0 expr1) ts /\ map norm (lex text_expr) = map norm ts.
Proof.
  eexists. split.
  - at_ 2. eapply d_and; [| |val].
    + at_ 4. eapply (d_compare _ BEq "="); [cbn; auto | | |val].
      * eapply d_concat; [eapply d_concat; [name | name | val] | | val].
        at_ 9. apply (d_string _ "'x'"). val.
      * at_ 9. eapply d_subscript; [name | | val].
        at_ 9. apply (d_integer _ "2").
    + eapply d_not; [|val]. at_ 4.
      eapply (d_between _ true); [name | | | val].
      * at_ 9. apply (d_minus_integer _ "1").
      * at_ 9. eapply d_cast; [| reflexivity | apply type_upper | val].
        at_ 9. apply (d_decimal _ "" "5"); [reflexivity | vm_compute; reflexivity | val].
  - vm_compute. reflexivity.
Qed.
Example C59_case_expression : expression_from_sql full_env text_expr = Ok expr1.
Proof. destruct expr1_derived as (ts & D & E). exact (C59_lexed_expression _ _ _ _ _ D E). Qed.

Local Definition text_query : string :=
  "WITH c (x) AS (select a || b AS d FROM s.t) SELECT ALL c.x, count(*) filter (WHERE c.x > 1) over w n"
  ++ " FROM c CROSS JOIN UNNEST(array[1, 2]) WITH ordinality AS u (v, i) WHERE NOT c.x IS NULL"
  ++ " GROUP BY ALL ROLLUP (c.x), u.v, () WINDOW w AS (partition BY c.x ORDER BY u.v desc nulls first)"
  ++ " UNION TABLE v ORDER BY n asc offset 2 rows fetch next 5 rows only".
Local Definition cx := NField "x" (TRStr "c") unknown.
Local Definition uv := NField "v" (TRStr "u") unknown.
Local Definition query1 : node :=
  NSetQuery OpUnion
    (NSelect
       [cx;
        NAliased (NFunc FCount [NStar TRNone unknown]
                    (mkFopts [] (Some (NBin BGt cx (NLit (LInt 1) (TSimple SInteger)))) (Some (named_window "w")) false)) "n"]
       (Some (NJoin (NTable "c" None None)
                (NAliasedRel (NUnnest [NArray [NLit (LInt 1) (TSimple SInteger); NLit (LInt 2) (TSimple SInteger)]] true)
                   "u" ["v"; "i"]) JCross false None))
       (Some (NUn UNot (NUn UIsNull cx)))
       (Some (mkG [GRollup [cx]; GSet [uv]; GSet []] false)) None false
       [("w", mkWindow None [mkOrder uv true true] [cx] FTRange (BUnbounded false) BCurrent)] no_qattrs)
    (NTableQuery (NTable "v" None None) no_qattrs) true
    (mkQ [NAliasedRel
            (NSelect [NAliased (NFunc FConcatenate [column "a"; column "b"] no_fopts) "d"]
               (Some (NTable "t" (Some "s") None)) None None None false [] no_qattrs) "c" ["x"]]
       [mkOrder (column "n") false false] (Some 2%Z) None).
Local Lemma query1_derived :
  exists q ts, derives full_env (PQuery q) ts /\ map norm (lex text_query) = map norm ts /\ q = query1.
Proof.
  do 2 eexists. split.
  - eapply d_query.
    + (* WITH *) eapply (d_with _ [_]). apply d_one. eapply (d_named _ "c" ["x"]).
      * eapply d_query; [apply d_with_none | | apply d_order_none | apply off_none | apply lim_none].
        eapply d_term_tighter; [|eapply d_core]; [lia|].
        eapply (d_select _ false _ [_]); [apply qty_none | | | apply d_absent | apply d_groupby_none | apply d_absent | apply d_windows_none |].
        -- apply d_one. eapply d_item_alias; [at_ 5 | apply (alias_as "d") |].
           ++ eapply (d_concat _ (column "a") _ (column "b")); [name | name | val].
           ++ val.
        -- apply d_from. eapply d_rel_tighter; [|eapply d_table; apply (name_schema "s" "t")]. lia.
        -- val.
      * val.
    + eapply (d_term_tighter _ 1); [lia|]. eapply (d_set_op _ OpUnion); [| | apply sq_none |].
      * eapply d_term_tighter; [|eapply d_core]; [cbn; lia|].
        eapply (d_select _ false _ [_; _]); [apply qty_all | | | | | apply d_absent | |].
        -- eapply d_more; [|apply d_one].
           ++ apply d_item. eapply (d_tighter _ 9); [lia|]. apply (d_qualified _ "c" "x").
           ++ eapply d_item_alias; [| apply (alias_bare "n") |].
              ** at_ 9. eapply (d_call_star _ _ "count" FCount);
                   [right; exists "COUNT"; split; reflexivity | reflexivity | apply star_all | | | discriminate | reflexivity |].
                 --- eapply d_filter; [w "filter"|]. at_ 4.
                     eapply (d_compare _ BGt ">" cx); [cbn; auto 7 | name | at_ 9; apply (d_integer _ "1") | val].
                 --- eapply (d_over_name _ _ "w"). w "over".
                 --- val.
              ** val.
        -- apply d_from. eapply d_join_plain; [| | apply pw_cross |].
           ++ eapply d_rel_tighter; [|eapply d_table; apply (name_table "c")]. lia.
           ++ eapply (d_rel_tighter _ 2); [lia|]. eapply (d_rel_alias _ _ _ "u" _ ["v"; "i"]); [| apply alias_as |].
              ** eapply (d_unnest _ [_]); [| eapply ord_with; w "ordinality" |].
                 --- apply d_one. at_ 9. eapply (d_array _ _ [_; _]); [w "array" | |].
                     +++ eapply d_more; [|apply d_one]; at_ 9; [apply (d_integer _ "1") | apply (d_integer _ "2")].
                     +++ val.
                 --- val.
              ** val.
           ++ val.
        -- apply d_present. at_ 3. apply (d_not _ (NUn UIsNull cx)); [|val]. at_ 4. eapply (d_null _ false cx). name.
        -- eapply (d_groupby _ false _ [_; _; _]); [apply qty_all|].
           eapply d_more; [apply (d_rollup _ [cx]); apply d_one; name|].
           eapply d_more; [apply d_group_set; apply (d_set_one _ uv); [name | reflexivity]|].
           apply d_one. apply d_group_set, d_set_none.
        -- eapply (d_windows _ _ [_]); [w "WINDOW" | | repeat constructor; intros []].
           apply d_one. apply (d_windef _ "w").
           eapply d_window; [apply parent_none | | | apply d_frame_none].
           ++ eapply (d_partition _ _ [cx]); [w "partition" |]. apply d_one. name.
           ++ eapply (d_order _ [_]). apply d_one. eapply (d_sort _ uv); [name | eapply dir_desc; w "desc" |].
              eapply nulls_first; [w "nulls" | w "first"].
        -- val.
      * eapply (d_term_tighter _ 3); [cbn; lia|]. apply d_core. apply (d_table_query _ ["v"]). apply name_table.
      * val.
    + eapply (d_order _ [_]). apply d_one. eapply (d_sort _ (column "n")); [name | eapply dir_asc; w "asc" | apply nulls_none].
    + eapply (off_some _ "2"); [w "offset" | right; eapply row_many; w "rows"].
    + eapply lim_only; [w "fetch" | right; w "next" | right; exists "5"; reflexivity | eapply row_many; w "rows" | w "only"].
  - split; vm_compute; reflexivity.
Qed.
Example C59_case_query : query_from_sql full_env text_query = Ok query1.
Proof. destruct query1_derived as (q & ts & D & E & ->). exact (C59_lexed_query _ _ _ _ D E). Qed.

(** Queries as operands. *)
Local Definition text_scalar : string := "a in ((select b from t), 2) AND (SELECT x) + 1 = ((SELECT y)[3])".
Local Definition sel (e : node) (fr : option node) : node := NSelect [e] fr None None None false [] no_qattrs.
Local Definition expr2 : node :=
  NBin BAnd (NInList (column "a") [sel (column "b") (Some (NTable "t" None None)); NLit (LInt 2) (TSimple SInteger)])
    (NBin BEq (NBin BAdd (sel (column "x") None) (NLit (LInt 1) (TSimple SInteger)))
       (NSubscript (sel (column "y") None) (NLit (LInt 3) (TSimple SInteger)))).
Local Lemma scalar_column en n fr tfr : derives en (PFrom fr) tfr -> constructs (sel (column n) fr) -> value (sel (column n) fr) ->
  derives en (PExpr 10 (sel (column n) fr)) (paren (K "SELECT" :: TId n :: tfr)).
Proof.
  intros F C V. apply d_scalar; [|exact V].
  assert (Q : derives en (PQuery (dressed (mkQ [] [] None None) (sel (column n) fr)))
    ([] ++ (K "SELECT" :: [] ++ [TId n] ++ tfr ++ [] ++ [] ++ [] ++ []) ++ [] ++ [] ++ [])%list).
  { apply d_query; [apply d_with_none | | apply d_order_none | apply off_none | apply lim_none].
    apply (d_term_tighter _ 3); [lia|]. apply d_core.
    apply (d_select _ false _ [column n]); [apply qty_none | apply d_one, d_item; name | exact F | apply (d_absent _ [K "WHERE"])
      | apply d_groupby_none | apply (d_absent _ [K "HAVING"]) | apply d_windows_none | exact C]. }
  cbn [app] in Q. rewrite !app_nil_r in Q. exact Q.
Qed.
Local Lemma expr2_derived : exists ts, derives full_env (PExpr 0 expr2) ts /\ map norm (lex text_scalar) = map norm ts.
Proof.
  eexists. split.
  - at_ 2. eapply d_and; [| |val].
    + at_ 4. eapply (d_in _ false); [name | | val]. eapply d_more; [|apply d_one].
      * at_ 10. apply (scalar_column _ "b" (Some (NTable "t" None None))); [|val|val].
        apply d_from. apply (d_rel_tighter _ 3); [lia|]. apply (d_table _ ["t"]), name_table.
      * at_ 9. apply (d_integer _ "2").
    + at_ 4. eapply (d_compare _ BEq "="); [cbn; auto | | | val].
      * at_ 6. eapply (d_sum _ BAdd "+"); [cbn; auto | at_ 10 | at_ 9; apply (d_integer _ "1") | val].
        apply (scalar_column _ "x" None); [apply d_from_none | val | val].
      * at_ 9. eapply d_paren; [|reflexivity]. at_ 9. eapply d_subscript; [at_ 10 | at_ 9; apply (d_integer _ "3") | val].
        apply (scalar_column _ "y" None); [apply d_from_none | val | val].
  - vm_compute. reflexivity.
Qed.
Example C59_case_scalar : expression_from_sql full_env text_scalar = Ok expr2.
Proof. destruct expr2_derived as (ts & D & E). exact (C59_lexed_expression _ _ _ _ _ D E). Qed.
