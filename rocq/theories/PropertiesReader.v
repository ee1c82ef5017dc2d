(** C58: what holds of every object that is read from a text, and of each of its parts. *)
From Coq Require Import String List ZArith NArith Bool Lia.
From Verif Require Import PyStr Types Inference Lexer TypeParser TypeObjects TypeRoundTrip Functions Ast Sql Walk
  Tokens TextFacts ReadTokens ReadTypes ParseForms Good ReadShape Parser PropertiesResolve ReadVisit ReadSound
  PropertiesTypes PropertiesLiterals Cli PropertiesCli.
Import ListNotations.
Open Scope nat_scope.
Open Scope string_scope.
Open Scope list_scope.
Notation built := PropertiesResolve.built.

(** * Statements *)

(** The objects that reading gives: [expression_from_sql] and [query_from_sql]
    (treeno/builder/convert.py 104-110) on some text. *)
Definition read_from (en : env) (s : string) (e : node) : Prop :=
  expression_from_sql en s = Ok e \/ query_from_sql en s = Ok e.
Definition read (en : env) (e : node) : Prop := exists s, read_from en s e.
(** Texts without unicode strings, and without doubles (SqlBase.g4 1149-1151, 1169-1172). *)
Definition no_unicode (s : string) : Prop := forall t, ~ In (TUniString t) (lex s).
Definition no_double (s : string) : Prop := forall t, ~ In (TDbl t) (lex s).
(** [x] is a part of [e], at any depth, and [vs] are the parameters of the lambdas around it. *)
Inductive reached : node -> list string -> node -> Prop :=
| reached_here e : reached e [] e
| reached_in e k vs x :
    In k (kids e) -> reached k vs x ->
    reached e (vs ++ match e with NLambda ws _ => ws | _ => [] end) x.

(** * Every part is well formed *)
Lemma read_have en s e : read_from en s e -> built e /\ @well (lexis_of (lex s)) en [] e.
Proof.
  intros [H|H]; [destruct (expression_have _ _ _ H) as (A & B & _)|destruct (query_have _ _ _ H) as (A & B & _)];
    now split.
Qed.
Lemma reached_well {Lx : lexis} en e vs x : reached e vs x -> forall us, well en us e -> well en (vs ++ us) x.
Proof.
  induction 1 as [e|e k vs x I R IH]; intros us W; [exact W|].
  rewrite <- app_assoc. apply IH. inversion W as [? ? _ F]; subst. rewrite Forall_forall in F. specialize (F k I).
  destruct e; exact F.
Qed.
Lemma reached_built e vs x : reached e vs x -> built e -> built x.
Proof.
  induction 1 as [e|e k vs x I R IH]; intro B; [exact B|].
  apply IH. pose proof (parts_built e B) as F. rewrite Forall_forall in F. now apply F.
Qed.
Lemma read_from_here en s e vs x : read_from en s e -> reached e vs x -> @well_here (lexis_of (lex s)) en vs x.
Proof.
  intros H R. destruct (read_have en s e H) as [_ W]. pose proof (reached_well en e vs x R [] W) as W'.
  rewrite app_nil_r in W'. now inversion W'.
Qed.
Lemma read_here en e vs x : read en e -> reached e vs x -> exists Lx : lexis, well_here en vs x.
Proof. intros (s & H) R. exists (lexis_of (lex s)). exact (read_from_here en s e vs x H R). Qed.
Lemma unicode_not s : no_unicode s -> has_uni (lex s) = false.
Proof.
  intro H. unfold has_uni. destruct (existsb _ (lex s)) eqn:E; [|reflexivity].
  apply existsb_exists in E as (t & I & T). destruct t; try discriminate. now apply H in I.
Qed.
Lemma double_not s : no_double s -> has_dbl (lex s) = false.
Proof.
  intro H. unfold has_dbl. destruct (existsb _ (lex s)) eqn:E; [|reflexivity].
  apply existsb_exists in E as (t & I & T). destruct t; try discriminate. now apply H in I.
Qed.

(** The objects that reading gives are values or queries ([None] for what is not converted),
    of the shape that ReadShape.v describes, part by part.  [lexis_of] tells whether the text has
    unicode strings and doubles. *)
Theorem C58_expression_well : forall en s e,
  expression_from_sql en s = Ok e -> built e /\ @well (lexis_of (lex s)) en [] e /\ is_term e = true.
Proof. intros en s e H. exact (expression_have en s e H). Qed.
Print Assumptions C58_expression_well.
Theorem C58_query_well : forall en s e,
  query_from_sql en s = Ok e -> built e /\ @well (lexis_of (lex s)) en [] e /\ is_select e = true.
Proof. intros en s e H. exact (query_have en s e H). Qed.
Print Assumptions C58_query_well.
(** Every part has a type: its constructor accepts it. *)
Theorem C58_parts_accepted : forall en e vs x, read en e -> reached e vs x -> exists t, check x = Ok t.
Proof. intros en e vs x (s & H) R. exact (reached_built e vs x R (proj1 (read_have en s e H))). Qed.
Print Assumptions C58_parts_accepted.

(** * Scopes *)

(** Variables occur only within a lambda with that parameter; *)
Theorem C58_variables_bound : forall en e vs n, read en e -> reached e vs (NVar n) -> In n vs.
Proof. intros en e vs n H R. destruct (read_here _ _ _ _ H R) as [? W]; exact W. Qed.
Print Assumptions C58_variables_bound.
(** and within it the parameter is never taken for a column. *)
Theorem C58_columns_free : forall en e vs n t, read en e -> reached e vs (NField n TRNone t) -> ~ In n vs.
Proof. intros en e vs n t H R. now destruct (read_here _ _ _ _ H R) as (? & _ & _ & _ & N). Qed.
Print Assumptions C58_columns_free.
(** The windows of a WINDOW clause have different names. *)
Theorem C58_windows_distinct : forall en e vs sel fr wh gb hv d ws qa,
  read en e -> reached e vs (NSelect sel fr wh gb hv d ws qa) -> NoDup (map fst ws).
Proof. intros en e vs sel fr wh gb hv d ws qa H R. now destruct (read_here _ _ _ _ H R) as (? & _ & _ & _ & _ & _ & _ & N & _). Qed.
Print Assumptions C58_windows_distinct.

(** * Leaves *)

(** Literals carry the type of their value. *)
Theorem C58_integer_type : forall en e vs z t, read en e -> reached e vs (NLit (LInt z) t) -> t = infer_integral z.
Proof. intros en e vs z t H R. destruct (read_here _ _ _ _ H R) as [? W]; exact W. Qed.
Print Assumptions C58_integer_type.
Theorem C58_string_type : forall en e vs s t,
  read en e -> reached e vs (NLit (LStr s) t) -> t = TVarchar (Some (zlen s)).
Proof. intros en e vs s t H R. destruct (read_here _ _ _ _ H R) as (? & _ & C). exact C. Qed.
Print Assumptions C58_string_type.
(** Without unicode strings, quotes in a string literal occur only in pairs, and never at an end. *)
Theorem C58_string_quotes : forall en text e vs s t,
  read_from en text e -> no_unicode text -> reached e vs (NLit (LStr s) t) -> no_edge squote s /\ doubled squote s.
Proof.
  intros en text e vs s t H N R. destruct (read_from_here _ _ _ _ _ H R) as [A _]. apply A. exact (unicode_not _ N).
Qed.
Print Assumptions C58_string_quotes.
(** A unicode string can give any quotes. *)
Theorem C58_string_quotes_refuted : exists text s t,
  read_from bare_env text (NLit (LStr s) t) /\ ~ no_edge squote s /\ ~ doubled squote s.
Proof.
  exists "U&'\0027'", "'", (TVarchar (Some 1%Z)). split; [left; vm_compute; reflexivity|]. split.
  - intros [N _]. now apply (N "").
  - intro D. apply paired_doubled in D. discriminate.
Qed.
Print Assumptions C58_string_quotes_refuted.
(** Floats come from doubles only, have the type DOUBLE and one of three texts ([float_text]). *)
Theorem C58_float : forall en e vs m t,
  read en e -> reached e vs (NLit (LFloat m) t) -> t = double /\ float_text m.
Proof. intros en e vs m t H R. destruct (read_here _ _ _ _ H R) as (? & A & _ & B). now split. Qed.
Print Assumptions C58_float.
Theorem C58_no_float : forall en text e vs m t,
  read_from en text e -> no_double text -> ~ reached e vs (NLit (LFloat m) t).
Proof.
  intros en text e vs m t H N R. destruct (read_from_here _ _ _ _ _ H R) as (_ & D & _).
  pose proof (double_not _ N) as F. cbn in D. congruence.
Qed.
Print Assumptions C58_no_float.
(** Columns have no type until the query is resolved; their names contain quotes only in pairs,
    and none at either end. *)
Theorem C58_column : forall en e vs n tr t,
  read en e -> reached e vs (NField n tr t) -> t = unknown /\ no_edge dquote n /\ doubled dquote n.
Proof. intros en e vs n tr t H R. destruct (read_here _ _ _ _ H R) as (? & A & [B C] & _). now split. Qed.
Print Assumptions C58_column.
(** The types of casts can be written and read back. *)
Theorem C58_cast_type : forall en e vs tr v t,
  read en e -> reached e vs (NCast tr v t) -> type_from_sql (type_sql t) = Ok (raw_of t).
Proof.
  intros en e vs tr v t H R. destruct (read_here _ _ _ _ H R) as (? & _ & W). now apply C02_canonical_round_trip.
Qed.
Print Assumptions C58_cast_type.

(** * Clauses *)

(** Only a CROSS join or a NATURAL join has no criterion, and no join is both. *)
Theorem C58_join_criterion : forall en e vs l r jt natural,
  read en e -> reached e vs (NJoin l r jt natural None) -> (jt = JCross <-> natural = false).
Proof.
  intros en e vs l r jt natural H R. destruct (read_here _ _ _ _ H R) as (? & _ & _ & J). cbn [join_read] in J.
  destruct jt, natural; cbn in J; split; intro X; (discriminate || reflexivity).
Qed.
Print Assumptions C58_join_criterion.
(** A catalog is never without a schema. *)
Theorem C58_table_schema : forall en e vs n ca,
  read en e -> reached e vs (NTable n None ca) -> ca = None.
Proof. intros en e vs n ca H R. destruct (read_here _ _ _ _ H R) as (? & _ & _ & _ & C). now apply C. Qed.
Print Assumptions C58_table_schema.
(** [IGNORE NULLS] occurs only with a window. *)
Theorem C58_ignore_nulls : forall en e vs f args fo,
  read en e -> reached e vs (NFunc f args fo) -> fo_ignore fo = true -> fo_window fo <> None.
Proof.
  intros en e vs f args fo H R I. destruct (read_here _ _ _ _ H R) as (? & _ & _ & (_ & _ & W) & _).
  intro N. rewrite N in W. congruence.
Qed.
Print Assumptions C58_ignore_nulls.
(** A function is one that the registry names, or has a notation of its own. *)
Theorem C58_function : forall en e vs f args fo,
  read en e -> reached e vs (NFunc f args fo) ->
  f = FConcatenate \/ fn_bare f = true \/ exists name, names_to_functions en name = Some f.
Proof. intros en e vs f args fo H R. now destruct (read_here _ _ _ _ H R) as (? & F & _). Qed.
Print Assumptions C58_function.
(** Row counts are natural numbers. *)
Theorem C58_row_counts : forall en e vs sel fr wh gb hv d ws wi ob off lim,
  read en e -> reached e vs (NSelect sel fr wh gb hv d ws (mkQ wi ob off lim)) ->
  (forall z, off = Some z -> (0 <= z)%Z) /\ (forall z, lim = Some z -> (0 <= z)%Z).
Proof.
  intros en e vs sel fr wh gb hv d ws wi ob off lim H R.
  destruct (read_here _ _ _ _ H R) as (? & _ & _ & _ & _ & _ & _ & _ & (_ & _ & A & B)). cbn in A, B.
  split; intros z ->; assumption.
Qed.
Print Assumptions C58_row_counts.

(** * Types *)

(** Every type that is read is one the constructors build, so that the command [format type]
    (C52) writes a text that it leaves as it is. *)
Theorem C58_type_built : forall s r, type_from_sql s = Ok r -> TypeObjects.built r.
Proof. intros s r H. exact (proj1 (type_from_sql_read s r H)). Qed.
Print Assumptions C58_type_built.
Theorem C58_format_type : forall en s r, type_from_sql s = Ok r ->
  exists s' r', format en CType s = Ok s' /\ raw_sql r = Ok s' /\ type_from_sql s' = Ok r' /\ same r' r
                /\ format en CType s' = Ok s'.
Proof. intros en s r H. exact (C52_format_type en s r H (C58_type_built s r H)). Qed.
Print Assumptions C58_format_type.

(** * Examples *)
Definition case_text : string :=
  "SELECT NULLIF(b, (x, y) -> x + y < z AND t.x = 'a''b'), CAST(-1.50 AS DECIMAL(4,2)), max(a) IGNORE NULLS OVER (w) "
  ++ "FROM c.s.t NATURAL JOIN u CROSS JOIN v WINDOW w AS (), w2 AS (ORDER BY 12) LIMIT 0".
Definition lambda_part : node :=
  NLambda ["x"; "y"]
    (NBin BAnd (NBin BLt (NBin BAdd (NVar "x") (NVar "y")) (column "z"))
       (NBin BEq (NField "x" (TRStr "t") unknown) (NLit (LStr "a''b") (TVarchar (Some 4%Z))))).
Definition range_window (parent : option string) (ob : list (order node)) : window node :=
  mkWindow parent ob [] FTRange (BUnbounded false) BCurrent.
Definition cast_part : node := NCast false (NLit (LDec (mkDec true 150 (-2))) (TDecimal 3 2)) (TDecimal 4 2).
Definition call_part : node := NFunc FMax [column "a"] (mkFopts [] None (Some (range_window (Some "w") [])) true).
Definition join_part : node := NJoin (NTable "t" (Some "s") (Some "c")) (NTable "u" None None) JInner true None.
Definition case_query : node :=
  NSelect [NFunc FNullIf [column "b"; lambda_part] no_fopts; cast_part; call_part]
    (Some (NJoin join_part (NTable "v" None None) JCross false None)) None None None false
    [("w", range_window None []); ("w2", range_window None [mkOrder (NLit (LInt 12) (TSimple SInteger)) false false])]
    (mkQ [] [] None (Some 0%Z)).
Example C58_case : read full_env case_query.
Proof. exists case_text. right. vm_compute. reflexivity. Qed.
Ltac part n :=
  match goal with
  | |- reached ?e _ _ =>
      let k := eval cbn in (nth n (kids e) NNone) in
      refine (reached_in e k [] _ _ _); [repeat (first [left; reflexivity | right])|]
  end.
Example C58_case_lambda : reached case_query [] lambda_part.
Proof. part 0. part 1. constructor. Qed.
Example C58_case_variable :
  reached case_query ["x"; "y"] (NVar "x") /\ reached case_query ["x"; "y"] (column "z")
  /\ reached case_query ["x"; "y"] (NLit (LStr "a''b") (TVarchar (Some 4%Z))).
Proof.
  assert (A : forall x, reached lambda_part ["x"; "y"] x -> reached case_query ["x"; "y"] x).
  { intros x R. apply (reached_in case_query (NFunc FNullIf [column "b"; lambda_part] no_fopts) ["x"; "y"]);
      [now left|].
    apply (reached_in (NFunc FNullIf [column "b"; lambda_part] no_fopts) lambda_part ["x"; "y"]); [|exact R].
    right. now left. }
  repeat split; apply A; (refine (reached_in lambda_part _ [] _ _ _); [left; reflexivity|]).
  - part 0. part 0. part 0. constructor.
  - part 0. part 1. constructor.
  - part 1. part 1. constructor.
Qed.
Example C58_case_plain : read_from full_env case_text case_query /\ no_unicode case_text /\ no_double case_text.
Proof.
  split; [right; vm_compute; reflexivity|].
  split; intros t I; vm_compute in I; repeat (destruct I as [I|I]; [discriminate I|]); destruct I.
Qed.
Example C58_case_float :
  read_from bare_env "a + -12.50E3" (NBin BAdd (column "a") (NLit (LFloat "-12500.0") double)).
Proof. left. vm_compute. reflexivity. Qed.
Example C58_case_parts :
  reached case_query [] cast_part /\ reached case_query [] call_part /\ reached case_query [] join_part
  /\ reached case_query [] (NTable "u" None None).
Proof. repeat split; [part 1|part 2|part 3; part 0|part 3; part 0; part 1]; constructor. Qed.
(** What is read need not be written as it was: see C17, C20 and the refuted statements there.
    Without the parser the conclusions are false. *)
Example C58_other_objects :
  @well_here any full_env [] (NVar "x") = False /\ ~ @well any full_env [] (NLit (LInt 3) boolean)
  /\ ~ @well any full_env [] (NLambda ["x"] (column "x")).
Proof.
  split; [reflexivity|]. split; intro W; inversion W as [? ? H F]; subst.
  - discriminate H.
  - inversion F as [|? ? W' _]; subst. inversion W' as [? ? H' _]; subst. destruct H' as (_ & _ & _ & N). apply N. now left.
Qed.
Example C58_type_case : exists r, type_from_sql "map(varchar , row(array(decimal(9)), timestamp(3)))" = Ok r.
Proof. eexists. vm_compute. reflexivity. Qed.
