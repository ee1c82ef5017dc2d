(** Property theorems C60: texts that are read as nothing, and the clauses that
    disappear with them. *)
From Coq Require Import String Ascii List Bool ZArith NArith Arith Lia.
From Verif Require Import PyStr StrFacts Printer Types Conversions Inference Lexer LexFacts ReadsFacts
  TypeParser TypeRoundTrip Functions Ast Sql Tokens SqlReads Parser ParseBase ParseParts ParseExpr ParseRel Good GoodFacts ParseWhole
  TextFacts PropertiesLiterals PropertiesRoundTrip Spelling SpellFacts GapFacts PropertiesSpelling
  ParseForms Grammar ParseNone GrammarFacts PropertiesGrammar.
Import ListNotations.
Open Scope nat_scope.
Open Scope string_scope.

(** From tokens to results. *)
Lemma nothing_derived en ts : derives en PNothing ts -> expression_of_tokens en ts = Ok NNone.
Proof.
  intro D. apply sound in D. pose proof (nt_reads en ts D (parse_fuel ts)) as R. unfold expression_of_tokens.
  assert (L : 8 * length ts + 4 <= parse_fuel ts) by (unfold parse_fuel; lia).
  specialize (R L []). rewrite app_nil_r in R. rewrite R by reflexivity. reflexivity.
Qed.
Lemma hidden_derived en ts rest :
  derives en PHidden ts -> query_end rest = true -> query_of_tokens en (ts ++ rest) = Ok NNone.
Proof.
  intros D Q. apply sound in D. unfold query_of_tokens.
  rewrite (hd_query _ _ D); [reflexivity| |exact Q]. unfold parse_fuel. rewrite app_length. lia.
Qed.

(** ** What is read as nothing *)
Theorem C60_expression : forall en ts ts' s,
  derives en PNothing ts -> written ts' s -> map norm ts' = map norm ts -> expression_from_sql en s = Ok NNone.
Proof.
  intros en ts ts' s D W E. apply written_lex in W. unfold expression_from_sql.
  rewrite W, <- expression_norm, E, expression_norm. now apply nothing_derived.
Qed.
Print Assumptions C60_expression.
Theorem C60_query : forall en ts ts' s,
  derives en PHidden ts -> written ts' s -> map norm ts' = map norm ts -> query_from_sql en s = Ok NNone.
Proof.
  intros en ts ts' s D W E. apply written_lex in W. unfold query_from_sql.
  rewrite W, <- query_norm, E, query_norm. rewrite <- (app_nil_r ts). now apply hidden_derived.
Qed.
Print Assumptions C60_query.
(** Such a text is not an expression by any other rule. *)
Theorem C60_no_expression : forall en c e ts ts',
  derives en PNothing ts -> derives en (PExpr c e) ts' -> map norm ts = map norm ts' -> False.
Proof.
  intros en c e ts ts' D D' E. apply nothing_derived in D.
  pose proof (expression_derived en c e ts' D') as R. apply sound in D'. destruct D' as (c' & _ & _ & X).
  rewrite <- expression_norm in D, R. rewrite E, R in D. injection D as ->.
  now apply (typed_not_none _ (ex_typed _ _ _ _ X)).
Qed.
Print Assumptions C60_no_expression.
Theorem C60_no_query : forall en q ts ts',
  derives en PHidden ts -> derives en (PQuery q) ts' -> map norm ts = map norm ts' -> False.
Proof.
  intros en q ts ts' D D' E. pose proof (hidden_derived en ts [] D eq_refl) as H.
  pose proof (query_derived en q ts' [] D' eq_refl) as R. apply sound in D'. destruct D' as [_ N].
  rewrite app_nil_r in H, R. rewrite <- query_norm in H, R. rewrite E, R in H. injection H as ->. discriminate N.
Qed.
Print Assumptions C60_no_query.

(** ** Clauses that disappear *)
(** A clause that is not written, or that has nothing to say. *)
Definition lost (en : env) (k : string) (ts : list token) : Prop :=
  ts = [] \/ exists te, ts = K k :: te /\ derives en PNothing te.
Definition lost_from (en : env) (ts : list token) : Prop :=
  ts = [] \/ exists te, ts = K "FROM" :: paren te /\ derives en PHidden te.
Lemma lost_clause en k c ts : In [K k] [[]; [K "ESCAPE"]; [K "WHERE"]; [K "HAVING"]] -> lost en k ts ->
  derives en (PClause [K k] c None) ts.
Proof. intros I [->|(te & -> & D)]; [apply d_absent | now apply (d_lost en [K k])]. Qed.
Theorem C60_select : forall en d tq l tl tfr twh gb tgb thv ws tws ts s,
  quantity d tq -> derives en (PList (map PItem l)) tl -> lost_from en tfr -> lost en "WHERE" twh ->
  derives en (PGroupBy gb) tgb -> lost en "HAVING" thv -> derives en (PWindows ws) tws ->
  constructs (NSelect l None None gb None d ws no_qattrs) ->
  written ts s ->
  map norm ts = map norm (K "SELECT" :: tq ++ tl ++ tfr ++ twh ++ tgb ++ thv ++ tws)%list ->
  query_from_sql en s = Ok (NSelect l None None gb None d ws no_qattrs).
Proof.
  intros en d tq l tl tfr twh gb tgb thv ws tws ts s Q L F W G H Ws C Wr E.
  assert (D : derives en (PQuery (dressed (mkQ [] [] None None) (NSelect l None None gb None d ws no_qattrs)))
    ([] ++ (K "SELECT" :: tq ++ tl ++ tfr ++ twh ++ tgb ++ thv ++ tws) ++ [] ++ [] ++ [])%list).
  { apply d_query; [apply d_with_none | | apply d_order_none | apply off_none | apply lim_none].
    apply (d_term_tighter _ 3); [lia|]. apply d_core. apply d_select; auto.
    - destruct F as [->|(te & -> & D)]; [apply d_from_none | now apply d_from_lost].
    - apply lost_clause; [cbn; auto | exact W].
    - apply lost_clause; [cbn; auto | exact H]. }
  apply (C59_query en _ _ ts s D Wr). rewrite !app_nil_r. exact E.
Qed.
Print Assumptions C60_select.
(** FILTER: an aggregate of a part is an aggregate of all. *)
Theorem C60_filter : forall en t n f l ta ob tob u te ts s,
  call_word t n -> names_to_functions en (upper n) = Some f -> is_aggregate f = true ->
  derives en (PArgs l) ta -> derives en (POrder ob) tob -> word "FILTER" u -> derives en PNothing te ->
  value (NFunc f (arranged f l) (mkFopts ob None None false)) ->
  written ts s -> map norm ts = map norm (t :: paren (ta ++ tob) ++ u :: paren (K "WHERE" :: te))%list ->
  expression_from_sql en s = Ok (NFunc f (arranged f l) (mkFopts ob None None false)).
Proof.
  intros en t n f l ta ob tob u te ts s Hc R A La Lo Hu D V W E.
  apply (C59_expression en 9 _ (t :: paren (ta ++ tob) ++ (u :: paren (K "WHERE" :: te)) ++ [] ++ [])%list ts s); auto.
  - apply (d_call en t n f l ta ob tob None _ None [] None []); auto.
    + now apply d_filter_lost.
    + constructor.
    + apply d_over_none.
    + intros ->. discriminate A.
  - rewrite !app_nil_r. exact E.
Qed.
Print Assumptions C60_filter.
(** CASE with such an operand is a CASE without one. *)
Theorem C60_case : forall en te l tl o to ts s,
  derives en PNothing te -> derives en (PWhens l) tl -> derives en (PClause [K "ELSE"] 0 o) to ->
  value (NCase l o None) ->
  written ts s -> map norm ts = map norm (K "CASE" :: te ++ tl ++ to ++ [K "END"])%list ->
  expression_from_sql en s = Ok (NCase l o None).
Proof.
  intros en te l tl o to ts s D L O V W E.
  apply (C59_expression en 9 _ (K "CASE" :: te ++ tl ++ to ++ [K "END"])%list ts s); auto.
  apply d_case; auto. apply (d_lost en []); [cbn; auto | exact D].
Qed.
Print Assumptions C60_case.
Theorem C60_escape : forall en (neg : bool) v tv p tp te ts s,
  derives en (PExpr 5 v) tv -> derives en (PExpr 5 p) tp -> derives en PNothing te -> value (NLike v p None) ->
  written ts s -> map norm ts = map norm (tv ++ not_word neg ++ K "LIKE" :: tp ++ K "ESCAPE" :: te)%list ->
  expression_from_sql en s = Ok (negated neg (NLike v p None)).
Proof.
  intros en neg v tv p tp te ts s D1 D2 D V W E.
  apply (C59_expression en 4 _ (tv ++ not_word neg ++ K "LIKE" :: tp ++ [K "ESCAPE"] ++ te)%list ts s); auto.
  apply d_like; auto. apply d_lost; [cbn; auto | exact D].
Qed.
Print Assumptions C60_escape.

(** ** Where it does not disappear it raises *)
Lemma compared en op s l tl r tr :
  cmp_text op = Some s ->
  (forall n, 8 * length tl + 3 <= n -> Rdv (p_value en n 0) l tl) -> (forall k, eat_kw "NOT" (tl ++ k)%list = None) ->
  (forall n, 8 * length tr + 3 <= n -> Rdv (p_value en n 0) r tr) ->
  expression_of_tokens en (tl ++ TSym s :: tr) = v_compare (Ok op) (Ok l) (Ok r).
Proof.
  intros Hs Hl Hn Hr. assert (Hc : cmp_sym s = Some (Ok op)).
  { destruct op; try discriminate; injection Hs as <-; reflexivity. }
  unfold expression_of_tokens. set (ts := (tl ++ TSym s :: tr)%list).
  assert (F : exists n, parse_fuel ts = S n /\ 8 * length tl + 3 <= n /\ 8 * length tr + 3 <= n).
  { exists (8 * length ts + 7). split; [unfold parse_fuel; lia|]. subst ts. rewrite app_length. cbn [length]. lia. }
  destruct F as (n & -> & F1 & F2).
  change (p_bool en (S n) 0 ts) with (bool_body (p_bool en n) (p_value en n 0) (p_query en n) 0 ts).
  unfold bool_body, ts. rewrite Hn. rewrite Hl; [|exact F1|cbn [lev]; rewrite (cmp_lev _ _ Hc); lia].
  cbn [bind]. unfold predicate. rewrite Hc.
  pose proof (Hr n F2 []) as R. rewrite app_nil_r in R. rewrite R by (cbn; lia). cbn [bind orelse].
  rewrite bool_stop; [|now left|lia]. cbn [bind]. now destruct (v_compare _ _ _).
Qed.
Theorem C60_compared_raises : forall en op s e te tn ts txt,
  cmp_text op = Some s -> derives en (PExpr 5 e) te -> derives en PNothing tn ->
  written ts txt ->
  (map norm ts = map norm (te ++ TSym s :: tn)%list \/ map norm ts = map norm (tn ++ TSym s :: te)%list) ->
  expression_from_sql en txt = Err ValueError.
Proof.
  intros en op s e te tn ts txt Hs D N W E. apply sound in D, N. destruct D as (c & Hc & _ & X). cbn [meaning] in N.
  pose proof (typed_not_none _ (ex_typed _ _ _ _ X)) as Ne.
  apply written_lex in W. unfold expression_from_sql. rewrite W, <- expression_norm.
  destruct E as [-> | ->]; rewrite expression_norm.
  - rewrite (compared en op s e te NNone tn); auto.
    + unfold v_compare. cbn [bind]. destruct (ex_typed _ _ _ _ X) as [t T].
      destruct e; try congruence; unfold mk; cbn [check] in *; rewrite ?T; reflexivity.
    + intros n Hn. now apply (ex_rdv en c).
    + intro k. destruct (ex_shape _ _ _ _ X) as [S1 _ S3 _]. specialize (S3 ltac:(lia)).
      destruct te as [|[w x| | | | | | | | | | | | ] te]; try reflexivity; [contradiction|]. cbn [app eat_kw first_not] in *.
      destruct (String.eqb w "NOT"); [discriminate S3 | reflexivity].
    + intros n Hn. now apply nt_value.
  - rewrite (compared en op s NNone tn e te); auto.
    + unfold v_compare. cbn [bind]. destruct e; congruence.
    + intros n Hn. now apply nt_value.
    + intro k. apply none_kw; [apply N | reflexivity].
    + intros n Hn. now apply (ex_rdv en c).
Qed.
Print Assumptions C60_compared_raises.

(** * Cases *)
Ltac look := vm_compute; reflexivity.
(** A query without anything but its columns. *)
Lemma plain_query en l tl fr tfr :
  derives en (PList (map PItem l)) tl -> derives en (PFrom fr) tfr ->
  constructs (NSelect l fr None None None false [] no_qattrs) ->
  derives en (PQuery (NSelect l fr None None None false [] no_qattrs)) (K "SELECT" :: tl ++ tfr).
Proof.
  intros L F C.
  assert (Q : derives en (PQuery (dressed (mkQ [] [] None None) (NSelect l fr None None None false [] no_qattrs)))
    ([] ++ (K "SELECT" :: [] ++ tl ++ tfr ++ [] ++ [] ++ [] ++ []) ++ [] ++ [] ++ [])%list).
  { apply d_query; [apply d_with_none | | apply d_order_none | apply off_none | apply lim_none].
    apply (d_term_tighter _ 3); [lia|]. apply d_core.
    apply d_select; [apply qty_none | exact L | exact F | apply (d_absent _ [K "WHERE"])
      | apply d_groupby_none | apply (d_absent _ [K "HAVING"]) | apply d_windows_none | exact C]. }
  cbn [app] in Q. rewrite !app_nil_r in Q. exact Q.
Qed.
Lemma one_column en n : derives en (PQuery (NSelect [column n] None None None None false [] no_qattrs)) [K "SELECT"; TId n].
Proof.
  apply (plain_query en [column n] [TId n] None []); [apply d_one, d_item; name | apply d_from_none | val].
Qed.
Lemma any_column en n : derives en PAny [TId n].
Proof. apply (d_any en (column n)). name. Qed.
(** TRIM of TRIM, POSITION, EXTRACT of SUBSTRING, GROUPING, EXISTS *)
Local Definition text_trim := "(trim(LEADING 'x' from exists(select a)))".
Local Definition text_extract := "EXTRACT(year FROM substring(a FROM position(b IN X'00') FOR grouping(a, b.c)))".
Local Lemma trim_nothing : exists ts, derives full_env PNothing ts /\ map norm (lex text_trim) = map norm ts.
Proof.
  eexists. split; [apply d_nothing_paren;
    apply (d_trim_chars _ [TKw "LEADING" "LEADING"] [TString "'x'"]); [now apply trim_word | |]|].
  - apply (d_any _ (text_literal "x")). at_ 9. apply (d_string _ "'x'"). val.
  - apply d_any_nothing. eapply d_exists. apply (one_column _ "a").
  - look.
Qed.
Local Lemma extract_nothing : exists ts, derives full_env PNothing ts /\ map norm (lex text_extract) = map norm ts.
Proof.
  eexists. split; [eapply (d_extract _ (TKw "YEAR" "year")); [right; exists "YEAR", "year"; split; reflexivity|];
  apply d_any_nothing; eapply (d_substring_for _ (TKw "SUBSTRING" "substring")); [w "substring" | apply (any_column _ "a") | |]|].
  - apply d_any_nothing. eapply (d_position _ (TKw "POSITION" "position")); [w "position" | apply (any_column _ "b")|].
    apply d_any_nothing. apply (d_binary _ "X'00'").
  - apply d_any_nothing. apply (d_grouping _ [["a"]; ["b"; "c"]]); [discriminate|].
    cbn [In]. intros x [<-|[<-|[]]]; discriminate.
  - look.
Qed.
Example C60_case_trim : expression_from_sql full_env text_trim = Ok NNone.
Proof.
  destruct trim_nothing as (ts & D & E). unfold expression_from_sql.
  rewrite <- expression_norm, E, expression_norm. now apply nothing_derived.
Qed.
Example C60_case_extract : expression_from_sql full_env text_extract = Ok NNone.
Proof.
  destruct extract_nothing as (ts & D & E). unfold expression_from_sql.
  rewrite <- expression_norm, E, expression_norm. now apply nothing_derived.
Qed.
(** A query in parentheses; in more of them it is nothing as an expression, too. *)
Example C60_case_hidden :
  query_from_sql full_env "((SELECT a))" = Ok NNone /\ expression_from_sql full_env "((SELECT a))" = Ok NNone
  /\ expression_from_sql full_env "(SELECT a)" = Ok (NSelect [column "a"] None None None None false [] no_qattrs).
Proof.
  assert (H : derives full_env PHidden (paren [K "SELECT"; TId "a"]))
    by (eapply d_hidden; [apply (one_column _ "a") | reflexivity]).
  pose proof (hidden_derived full_env _ [] (d_hidden_more _ _ H) eq_refl) as Q.
  pose proof (nothing_derived full_env _ (d_nothing_query _ _ H)) as X.
  rewrite app_nil_r in Q. split; [|split].
  - exact Q.
  - exact X.
  - apply (C59_lexed_expression full_env 10 _ (paren [K "SELECT"; TId "a"])); [|look].
    apply d_scalar; [apply (one_column _ "a") | val].
Qed.
(** All of its restrictions are gone from this query. *)
Local Definition text_lost : string :=
  "SELECT count(*) FILTER (WHERE exists(TABLE t)), CASE trim(a) WHEN true THEN 1 END, a LIKE b escape X'5c'"
  ++ " FROM ((SELECT a FROM t)) WHERE EXISTS(SELECT a) GROUP BY a HAVING POSITION(a IN b)".
Local Definition lost1 : node :=
  NSelect [NFunc FCount [NStar TRNone unknown] no_fopts;
           NCase [(NLit (LBool true) (TSimple SBoolean), NLit (LInt 1) (TSimple SInteger))] None None;
           NLike (column "a") (column "b") None]
    None None (Some (mkG [GSet [column "a"]] false)) None false [] no_qattrs.
Local Lemma table_query en n : derives en (PQuery (NTableQuery (NTable n None None) no_qattrs)) [K "TABLE"; TId n].
Proof.
  assert (Q : derives en (PQuery (dressed (mkQ [] [] None None) (NTableQuery (NTable n None None) no_qattrs)))
    ([] ++ [K "TABLE"; TId n] ++ [] ++ [] ++ [])%list).
  { apply d_query; [apply d_with_none | | apply d_order_none | apply off_none | apply lim_none].
    apply (d_term_tighter _ 3); [lia|]. apply d_core. apply (d_table_query _ [n]). apply name_table. }
  exact Q.
Qed.
Local Lemma lost1_derived : exists ts, derives full_env (PQuery lost1) ts /\ map norm (lex text_lost) = map norm ts.
Proof.
  assert (C : forall l tl tfr twh gb tgb thv,
    derives full_env (PList (map PItem l)) tl -> derives full_env (PFrom None) tfr ->
    derives full_env (PClause [K "WHERE"] 0 None) twh ->
    derives full_env (PGroupBy gb) tgb -> derives full_env (PClause [K "HAVING"] 0 None) thv ->
    constructs (NSelect l None None gb None false [] no_qattrs) ->
    derives full_env (PQuery (NSelect l None None gb None false [] no_qattrs))
      ([] ++ (K "SELECT" :: [] ++ tl ++ tfr ++ twh ++ tgb ++ thv ++ []) ++ [] ++ [] ++ [])%list).
  { intros. change (NSelect l None None gb None false [] no_qattrs)
      with (dressed (mkQ [] [] None None) (NSelect l None None gb None false [] no_qattrs)).
    apply d_query; [apply d_with_none | | apply d_order_none | apply off_none | apply lim_none].
    apply (d_term_tighter _ 3); [lia|]. apply d_core.
    apply d_select; auto; [apply qty_none | apply d_windows_none]. }
  eexists. split.
  - eapply C.
    + eapply d_more; [|eapply d_more; [|apply d_one]]; apply d_item.
      * at_ 9. eapply (d_call_star _ (TKw "COUNT" "count") "count" FCount TRNone _ None);
          [right; exists "COUNT"; split; reflexivity | reflexivity | apply star_all | | apply d_over_none | discriminate | reflexivity | val].
        eapply (d_filter_lost _ (TKw "FILTER" "FILTER")); [w "FILTER"|]. eapply d_exists. apply (table_query _ "t").
      * at_ 9. eapply d_case; [| | apply (d_absent _ [K "ELSE"]) | val].
        -- apply (d_lost _ []); [cbn; auto|]. apply (d_trim _ [TId "a"]); [apply any_column | reflexivity].
        -- eapply d_when_one; [at_ 9; apply d_true | at_ 9; apply (d_integer _ "1")].
      * at_ 4. eapply (d_like _ false (column "a") [TId "a"] (column "b") [TId "b"] None); [name | name | | val].
        apply (d_lost _ [K "ESCAPE"]); [cbn; auto|]. apply (d_binary _ "X'5c'").
    + apply d_from_lost. eapply d_hidden; [|].
      * apply (plain_query _ [column "a"] [TId "a"] (Some (NTable "t" None None))); [apply d_one, d_item; name | | val].
        apply d_from. apply (d_rel_tighter _ 3); [lia|]. apply (d_table _ ["t"]), name_table.
      * reflexivity.
    + apply (d_lost _ [K "WHERE"]); [cbn; auto|]. eapply d_exists. apply (one_column _ "a").
    + eapply (d_groupby _ false _ [_]); [apply qty_none|]. apply d_one. apply d_group_set.
      apply (d_set_one _ (column "a")); [name | reflexivity].
    + apply (d_lost _ [K "HAVING"]); [cbn; auto|]. apply (d_position _ (K "POSITION") [TId "a"] [TId "b"]);
        [w "POSITION" | apply any_column | apply any_column].
    + val.
  - look.
Qed.
Example C60_case_lost : query_from_sql full_env text_lost = Ok lost1.
Proof. destruct lost1_derived as (ts & D & E). exact (C59_lexed_query _ _ _ _ D E). Qed.
Example C60_case_raises :
  expression_from_sql full_env "a = EXISTS(SELECT a)" = Err ValueError
  /\ expression_from_sql full_env "EXISTS(SELECT a) < a" = Err ValueError.
Proof. split; vm_compute; reflexivity. Qed.
