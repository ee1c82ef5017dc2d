(** Property theorems C13 - C16: printing and reading back literals and names. *)
From Coq Require Import String Ascii List Bool ZArith NArith Arith Lia.
From Verif Require Import PyStr StrFacts Printer Types TypeFacts Inference Lexer LexFacts TypeParser Functions Ast Sql
  Tokens SqlReads Parser ParseRel Good ParseMain ParseWhole TextFacts.
Import ListNotations.
Open Scope nat_scope.
Open Scope string_scope.

Ltac each_part := repeat match goal with |- _ /\ _ => split end; try (vm_compute; reflexivity).

Lemma leaf_good en e : good_here en [] e = true -> kids e = [] -> good en [] e.
Proof. intros H K. constructor; [exact H|]. rewrite K. intros x []. Qed.
Lemma leaf_read en e s : good en [] e -> is_expr e = true -> lex s = toks e -> expression_from_sql en s = Ok e.
Proof. intros G E L. unfold expression_from_sql. rewrite L. now apply expression_tokens. Qed.

(** C13.  [Literal(x)] for a text [x] has the type VARCHAR(len(x)).  [doubled]
    and [no_edge] are defined in TextFacts.v without reference to the code. *)
Definition text_literal (x : string) : node := NLit (LStr x) (TVarchar (Some (zlen x))).
Lemma to_sql_text o x : ospaces o < 80 -> to_sql o (text_literal x) = Ok (quote_literal x).
Proof. intro H. unfold to_sql. apply Nat.ltb_lt in H. now rewrite H. Qed.
Theorem C13_string_round_trip : forall en o x,
  doubled squote x -> no_edge squote x -> ospaces o < 80 ->
  exists s, to_sql o (text_literal x) = Ok s /\ lex s = [TString s]
            /\ expression_from_sql en s = Ok (text_literal x).
Proof.
  intros en o x D E Ho. exists (quote_literal x). split; [now apply to_sql_text|].
  apply literal_token_iff in D. split; [exact D|]. apply leaf_read; [|reflexivity|exact D].
  apply leaf_good; [|reflexivity]. unfold good_here, text_literal, lit_good. cbn [check lit_type is_unknown negb bind].
  apply inner_iff in E. rewrite E. cbn [bind py_assert]. rewrite dtype_eqb_refl. reflexivity.
Qed.
Print Assumptions C13_string_round_trip.
(** Both conditions are needed: the text is one token exactly if quotes occur
    in pairs only, and then what is read back is the text without leading and
    trailing quotes. *)
Theorem C13_one_token_iff : forall o x s,
  to_sql o (text_literal x) = Ok s -> (lex s = [TString s] <-> doubled squote x).
Proof.
  intros o x s H. unfold to_sql in H. destruct (py_assert (ospaces o <? 80)%nat); [|discriminate].
  injection H as <-. apply literal_token_iff.
Qed.
Print Assumptions C13_one_token_iff.
Theorem C13_edge_needed : forall en o x s,
  to_sql o (text_literal x) = Ok s -> doubled squote x ->
  expression_from_sql en s = Ok (text_literal x) -> no_edge squote x.
Proof.
  intros en o x s H D R. unfold to_sql in H. destruct (py_assert (ospaces o <? 80)%nat); [|discriminate].
  injection H as <-. apply literal_token_iff in D. unfold expression_from_sql in R.
  change (sql (text_literal x) o) with (quote_literal x) in R. rewrite D in R.
  change (expression_of_tokens en [TString (quote_literal x)])
    with (mk (NLit (LStr (strip squote (quote_literal x)))
                   (TVarchar (Some (zlen (strip squote (quote_literal x))))))) in R.
  unfold mk in R. cbn [check is_unknown negb py_assert bind] in R. injection R as R _.
  apply inner_iff. unfold inner. now apply String.eqb_eq.
Qed.
Print Assumptions C13_edge_needed.
Example C13_case :
  doubled squote "it''s -- ""x"" /* */" /\ no_edge squote "it''s -- ""x"" /* */"
  /\ expression_from_sql bare_env "'it''s -- ""x"" /* */'" = Ok (text_literal "it''s -- ""x"" /* */").
Proof.
  split; [now apply paired_doubled|]. split; [now apply inner_iff|]. vm_compute; reflexivity.
Qed.
(** A quote inside ends the literal, and what follows is read as SQL. *)
Theorem C13_break_out_refuted :
  exists x s e, to_sql default_opts (text_literal x) = Ok s /\ expression_from_sql bare_env s = Ok e
    /\ e = NBin BOr (text_literal "a") (NBin BEq (text_literal "b") (text_literal "b")).
Proof. exists "a' OR 'b' = 'b"; eexists _, _; each_part. Qed.
Print Assumptions C13_break_out_refuted.
Theorem C13_edge_lost_refuted :
  exists x s, to_sql default_opts (text_literal x) = Ok s /\ lex s = [TString s]
    /\ expression_from_sql bare_env s = Ok (text_literal "a") /\ x <> "a".
Proof. exists "''a''"; eexists; each_part; discriminate. Qed.
Print Assumptions C13_edge_lost_refuted.

(** C14.  [Field(name)] and [Field(name, table)]; names are printed in double
    quotes. *)
Definition column (n : string) : node := NField n TRNone unknown.
Definition column_of (t n : string) : node := NField n (TRStr t) unknown.
Lemma ident_good en n : no_edge dquote n -> good en [] (column n).
Proof.
  intro E. apply leaf_good; [|reflexivity]. apply inner_iff in E. unfold good_here, column.
  cbn [check tref_ok bind py_assert mem existsb negb]. now rewrite E.
Qed.
Theorem C14_column_round_trip : forall en o n,
  doubled dquote n -> no_edge dquote n -> ospaces o < 80 ->
  exists s, to_sql o (column n) = Ok s /\ lex s = [TQuoted s]
            /\ expression_from_sql en s = Ok (column n).
Proof.
  intros en o n D E Ho. exists (quote_identifier n).
  apply Nat.ltb_lt in Ho. split; [unfold to_sql; now rewrite Ho|].
  apply identifier_token_iff in D. split; [exact D|]. apply leaf_read; [|reflexivity|exact D].
  now apply ident_good.
Qed.
Print Assumptions C14_column_round_trip.
Theorem C14_qualified_round_trip : forall en o t n,
  doubled dquote t -> no_edge dquote t -> t <> "" -> doubled dquote n -> no_edge dquote n -> ospaces o < 80 ->
  exists s, to_sql o (column_of t n) = Ok s /\ expression_from_sql en s = Ok (column_of t n).
Proof.
  intros en o t n Dt Et Nt D E Ho. exists (quote_identifier t ++ "." ++ quote_identifier n).
  apply Nat.ltb_lt in Ho. split.
  { unfold to_sql. rewrite Ho. cbn [py_assert bind printable column_of tref_ok].
    unfold sql. cbn [sql_n tref_text]. destruct t; [easy|]. reflexivity. }
  apply paired_doubled in Dt, D. apply inner_iff in Et, E.
  apply leaf_read; [|reflexivity|].
  - apply leaf_good; [|reflexivity]. unfold good_here, column_of.
    cbn [check tref_ok bind py_assert]. rewrite E, Et.
    destruct (String.eqb_spec t ""); [easy|]. reflexivity.
  - rewrite lex_quoted_ident by auto.
    assert (S : lex ("." ++ quote_identifier n) = TSym "." :: lex (quote_identifier n)).
    { cbn [append]. rewrite lex_cons. reflexivity. }
    rewrite S.
    rewrite <- (sapp_nil_r (quote_identifier n)) at 1. rewrite lex_quoted_ident by auto.
    destruct t; [easy|]. reflexivity.
Qed.
Print Assumptions C14_qualified_round_trip.
Theorem C14_one_token_iff : forall o n s,
  to_sql o (column n) = Ok s -> (lex s = [TQuoted s] <-> doubled dquote n).
Proof.
  intros o x s H. unfold to_sql in H. destruct (py_assert (ospaces o <? 80)%nat); [|discriminate].
  injection H as <-. apply identifier_token_iff.
Qed.
Print Assumptions C14_one_token_iff.
Theorem C14_edge_needed : forall en o n s,
  to_sql o (column n) = Ok s -> doubled dquote n ->
  expression_from_sql en s = Ok (column n) -> no_edge dquote n.
Proof.
  intros en o x s H D R. unfold to_sql in H. destruct (py_assert (ospaces o <? 80)%nat); [|discriminate].
  injection H as <-. apply identifier_token_iff in D. unfold expression_from_sql in R.
  change (sql (column x) o) with (quote_identifier x) in R. rewrite D in R.
  change (expression_of_tokens en [TQuoted (quote_identifier x)])
    with (Ok (NField (strip dquote (quote_identifier x)) TRNone unknown)) in R.
  injection R as R. apply inner_iff. unfold inner. now apply String.eqb_eq.
Qed.
Print Assumptions C14_edge_needed.
Example C14_case :
  doubled dquote "SELECT" /\ no_edge dquote "SELECT"
  /\ doubled dquote "a.b -- """"c'" /\ no_edge dquote "a.b -- """"c'"
  /\ to_sql default_opts (column "SELECT") = Ok """SELECT"""
  /\ expression_from_sql bare_env """a.b -- """"c'""" = Ok (column "a.b -- """"c'").
Proof.
  split; [now apply paired_doubled|]. split; [now apply inner_iff|].
  split; [now apply paired_doubled|]. split; [now apply inner_iff|].
  split; vm_compute; reflexivity.
Qed.

(** C15.  [Literal(v)] for an integer has the type [infer_type] gives it. *)
Theorem C15_integer_round_trip : forall en o z t,
  infer_type (LInt z) = Ok t -> ospaces o < 80 ->
  exists s, to_sql o (NLit (LInt z) t) = Ok s /\ expression_from_sql en s = Ok (NLit (LInt z) t).
Proof.
  intros en o z t I Ho. injection I as <-. exists (str_of_Z z).
  apply Nat.ltb_lt in Ho. split; [unfold to_sql; now rewrite Ho|].
  set (e := NLit (LInt z) (infer_integral z)).
  apply leaf_read; [|reflexivity|].
  - apply leaf_good; [|reflexivity]. unfold good_here, e, lit_good. cbn [check lit_type].
    assert (is_unknown (infer_integral z) = false) as ->.
    { unfold infer_integral. destruct (_ && _)%bool; reflexivity. }
    cbn [negb py_assert bind]. rewrite dtype_eqb_refl. reflexivity.
  - change (str_of_Z z) with (sql e default_opts). apply lex_sql. constructor; [reflexivity|]. intros x [].
Qed.
Print Assumptions C15_integer_round_trip.
Example C15_case :
  infer_type (LInt (-9223372036854775808)) = Ok bigint
  /\ to_sql default_opts (NLit (LInt (-9223372036854775808)) bigint) = Ok "-9223372036854775808"
  /\ expression_from_sql bare_env "-9223372036854775808" = Ok (NLit (LInt (-9223372036854775808)) bigint)
  /\ expression_from_sql bare_env "340282366920938463463374607431768211456"
     = Ok (NLit (LInt 340282366920938463463374607431768211456) bigint).
Proof. each_part. Qed.

(** C16.  [t'] is the type the parser infers, that of the digits without the
    sign; it exists iff there are at most 38 digits. *)
Definition unsigned_dec (d : dec) : dec := mkDec false (dcoef d) (dexp d).
Theorem C16_decimal_round_trip : forall en o d t t',
  infer_type (LDec (unsigned_dec d)) = Ok t' ->
  has_char "E" (dec_str d) = false -> (dexp d < 0)%Z ->
  (dneg d = true -> dcoef d <> 0%N /\ (dcoef d < 10 ^ 28)%N) ->
  ospaces o < 80 ->
  exists s, to_sql o (NLit (LDec d) t) = Ok s /\ expression_from_sql en s = Ok (NLit (LDec d) t').
Proof.
  intros en o d t t' I E Ne Hn Ho. exists (dec_str d).
  apply Nat.ltb_lt in Ho. split; [unfold to_sql; now rewrite Ho|].
  set (e := NLit (LDec d) t').
  assert (P : dec_plain d = true) by (unfold dec_plain; rewrite E; apply Z.ltb_lt in Ne; now rewrite Ne).
  apply leaf_read; [|reflexivity|].
  - apply leaf_good; [|reflexivity]. unfold good_here, e, lit_good. cbn [check lit_type].
    cbn [infer_type] in I. unfold unsigned_dec in I. rewrite I. rewrite dtype_eqb_refl, P.
    assert (U : is_unknown t' = false).
    { unfold infer_decimal, decimal in I.
      destruct (index_of "." _); destruct (py_assert _); try discriminate; injection I as <-; reflexivity. }
    rewrite U. cbn [negb py_assert bind andb].
    destruct (dneg d); [|reflexivity]. destruct (Hn eq_refl) as [H1 H2].
    apply N.eqb_neq in H1. rewrite H1. cbn [negb andb orb]. apply Nat.leb_le.
    destruct (str_of_N_spec (dcoef d)) as (_ & _ & _ & L & _). specialize (L ltac:(now apply N.eqb_neq)).
    assert (L' : (10 ^ N.of_nat (String.length (str_of_N (dcoef d)) - 1) < 10 ^ 28)%N) by lia.
    apply N.pow_lt_mono_r_iff in L'; [|lia]. unfold ctx_prec. lia.
  - change (dec_str d) with (sql e default_opts). apply lex_sql. constructor; [exact P|]. intros x [].
Qed.
Print Assumptions C16_decimal_round_trip.
Example C16_case :
  let d := mkDec true 1234567890123456789012345678 (-20) in
  infer_type (LDec (unsigned_dec d)) = Ok (TDecimal 28 20) /\ (dcoef d < 10 ^ 28)%N
  /\ to_sql default_opts (NLit (LDec d) (TDecimal 28 20)) = Ok "-12345678.90123456789012345678"
  /\ expression_from_sql bare_env "-12345678.90123456789012345678" = Ok (NLit (LDec d) (TDecimal 28 20)).
Proof. cbv zeta. each_part. Qed.
(** More digits are rounded when the sign is read. *)
Theorem C16_rounding_refuted :
  exists d t s d' t', infer_type (LDec d) = Ok t /\ to_sql default_opts (NLit (LDec d) t) = Ok s
    /\ expression_from_sql bare_env s = Ok (NLit (LDec d') t') /\ dcoef d' <> dcoef d.
Proof.
  exists (mkDec true 12345678901234567890123456789 (-1)). eexists _, _, _, _.
  each_part. vm_compute. discriminate.
Qed.
Print Assumptions C16_rounding_refuted.
(** Small values have an exponent in their text, which reads as a DOUBLE. *)
Theorem C16_exponent_refuted :
  exists d t s, infer_type (LDec d) = Ok t /\ to_sql default_opts (NLit (LDec d) t) = Ok s
    /\ lex s = [TDbl s] /\ expression_from_sql bare_env s = Ok (NLit (LFloat "1e-07") double).
Proof. exists (mkDec false 1 (-7)); eexists _, _; each_part. Qed.
Print Assumptions C16_exponent_refuted.
(** Without fraction digits the text is that of an integer, and a negative zero
    loses its sign. *)
Theorem C16_integral_refuted :
  exists d t s, infer_type (LDec d) = Ok t /\ to_sql default_opts (NLit (LDec d) t) = Ok s
    /\ expression_from_sql bare_env s = Ok (NLit (LInt 5) integer).
Proof. exists (mkDec false 5 0); eexists _, _; each_part. Qed.
Print Assumptions C16_integral_refuted.
Theorem C16_negative_zero_refuted :
  exists d t s t', infer_type (LDec d) = Ok t /\ to_sql default_opts (NLit (LDec d) t) = Ok s
    /\ dneg d = true /\ expression_from_sql bare_env s = Ok (NLit (LDec (unsigned_dec d)) t').
Proof. exists (mkDec true 0 (-1)); eexists _, _, _; each_part. Qed.
Print Assumptions C16_negative_zero_refuted.
(** The type is not that of the printed literal, for every negative decimal: the
    constructor counts the sign as a digit. *)
Theorem C16_negative_type_refuted :
  exists d t t' s, infer_type (LDec d) = Ok t /\ to_sql default_opts (NLit (LDec d) t) = Ok s
    /\ expression_from_sql bare_env s = Ok (NLit (LDec d) t') /\ t' <> t.
Proof. exists (mkDec true 15 (-1)); eexists _, _, _; each_part; discriminate. Qed.
Print Assumptions C16_negative_type_refuted.
