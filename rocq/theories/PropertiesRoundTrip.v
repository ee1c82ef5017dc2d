(** Property theorems C17, C18, C20 and C35: printing and reading back. *)
From Coq Require Import String Ascii List Bool ZArith NArith Arith Lia.
From Verif Require Import PyStr StrFacts Printer Types Inference Lexer LexFacts ReadsFacts TypeParser Functions Ast Sql
  Tokens SqlReads Parser ParseExpr ParseRel Good GoodFacts ParseWhole TextFacts SmallTrees PropertiesLiterals.
Import ListNotations.
Open Scope nat_scope.
Open Scope string_scope.

(** C17.  [lexable] (Tokens.v) says that texts and names can be printed, [good]
    (Good.v) lists which operand may stand where.  [en] is the set of imported
    function modules (it decides which calls can be read). *)
Theorem C17_expression_round_trip : forall en e o,
  lexable e -> good en [] e -> is_expr e = true -> ospaces o < 80 ->
  exists s, to_sql o e = Ok s /\ expression_from_sql en s = Ok e.
Proof. exact round_expression. Qed.
Print Assumptions C17_expression_round_trip.

(** For these two tree types there is no condition on the shape at all: all
    arithmetic over columns and integers, and all conditions over it (except
    that an equality is not negated directly). *)
Theorem C17_arithmetic : forall en a o,
  arith_names a -> ospaces o < 80 ->
  exists s, to_sql o (arith_node a) = Ok s /\ expression_from_sql en s = Ok (arith_node a).
Proof.
  intros en a o H Ho.
  exact (round_expression en _ o (arith_lexable a H) (arith_good en a H) (arith_expr a) Ho).
Qed.
Print Assumptions C17_arithmetic.
Theorem C17_conditions : forall en c o,
  cond_names c -> ospaces o < 80 ->
  exists s, to_sql o (cond_node c) = Ok s /\ expression_from_sql en s = Ok (cond_node c).
Proof.
  intros en c o H Ho.
  exact (round_expression en _ o (cond_lexable c H) (cond_good en c H) (cond_expr c) Ho).
Qed.
Print Assumptions C17_conditions.

Local Definition a := column "a".
Local Definition b := column "b".
Local Definition c := column "c".
Local Definition int (z : Z) : node := NLit (LInt z) (infer_integral z).
Local Definition win : window node :=
  mkWindow (Some "w") [mkOrder b true false] [a] FTRows (BBounded false (int 3)) (BUnbounded true).
Local Definition large : node :=
  NBin BAnd
    (NBin BGt (NFunc FSum [NBin BMinus a (NBin BMinus b c)]
                     (mkFopts [] (Some (NBin BLt (column "y") (int 3))) (Some win) false)) (int 0))
    (NUn UNot (NInList
       (NCase [(NBin BEq (column "k 1") (text_literal "a''b"), NCast false (int 1) (TDecimal 10 2))]
              (Some (NSubscript (NArray [int 2; NUn UNeg a]) (int 1))) (Some (NRow [a; int (-4)])))
       [int 1; NFunc FCoalesce [a; NLike b (text_literal "%x") None] no_fopts;
        NFunc FNullIf [a; NLambda ["x"; "y"] (NBin BOr (NVar "x") (NBin BAnd (NVar "y") c))] no_fopts])).
Example C17_case :
  lexable large /\ good full_env [] large /\ is_expr large = true
  /\ exists s, to_sql (mkOpts PRETTY 4) large = Ok s /\ expression_from_sql full_env s = Ok large.
Proof.
  assert (L : lexable large) by (apply (lexable_dec 9); vm_compute; reflexivity).
  assert (G : good full_env [] large) by (apply (good_dec full_env 9); vm_compute; reflexivity).
  split; [exact L|]. split; [exact G|]. split; [reflexivity|].
  apply C17_expression_round_trip; auto. cbn. lia.
Qed.
Example C17_arithmetic_case :
  let t := ABinary OMul (ABinary OSub (AColumn "x") (ABinary OSub (AColumn "y z") (AInteger (-1))))
                        (ABinary OMod (AInteger 2) (AInteger 99999999999)) in
  arith_names t
  /\ to_sql default_opts (arith_node t) = Ok "(""x"" - (""y z"" - -1)) * (2 % 99999999999)".
Proof.
  cbv zeta. split; [|vm_compute; reflexivity].
  repeat split; try (now apply paired_doubled); try (now apply inner_iff).
Qed.
Example C17_conditions_case :
  let t := CNot (CAnd (COr (CCompare OEq (AColumn "x") (AInteger 1)) (CNot (CIsNull (AColumn "x"))))
                      (CAnd (CBetween (AColumn "x") (AInteger 0) (AInteger 9))
                            (CIn (AColumn "x") (AInteger 1) [AInteger 2]))) in
  cond_names t
  /\ to_sql default_opts (cond_node t)
     = Ok "NOT ((""x"" = 1 OR ""x"" IS NOT NULL) AND (""x"" BETWEEN 0 AND 9 AND ""x"" IN (1,2)))".
Proof.
  cbv zeta. split; [|vm_compute; reflexivity].
  assert (N : name_ok "x") by (split; [now apply paired_doubled|]; split; [now apply inner_iff | reflexivity]).
  cbn. repeat match goal with |- _ /\ _ => split end; try exact N; try exact I; repeat constructor.
Qed.

(** Some objects outside the fragment that print without an exception but are
    not read back (DESIGN.md has the list): a comparison of a comparison, which
    needs parentheses that are not printed, ... *)
Theorem C17_nested_comparison_refuted :
  exists e s x, to_sql default_opts e = Ok s /\ check e = Ok (Some boolean)
    /\ expression_from_sql bare_env s = Err x.
Proof. exists (NBin BEq (NBin BEq a b) c). eexists _, _. each_part. Qed.
Print Assumptions C17_nested_comparison_refuted.
(** ... a negated equality, which is another object with the same meaning, ... *)
Theorem C17_negated_equality_refuted :
  exists e s, to_sql default_opts e = Ok s /\ expression_from_sql bare_env s = Ok (NBin BNe a b)
    /\ e = NUn UNot (NBin BEq a b).
Proof. exists (NUn UNot (NBin BEq a b)). eexists. each_part. Qed.
Print Assumptions C17_negated_equality_refuted.
(** ... a double negation, of which the text is a comment, ... *)
Theorem C17_double_minus_refuted :
  exists e s x, to_sql default_opts e = Ok s /\ e = NUn UNeg (NUn UNeg a) /\ lex s = []
    /\ expression_from_sql bare_env s = Err x.
Proof. exists (NUn UNeg (NUn UNeg a)). eexists _, _. each_part. Qed.
Print Assumptions C17_double_minus_refuted.
(** ... a single-element row, which is its element in parentheses, ... *)
Theorem C17_single_row_refuted :
  exists e s, to_sql default_opts e = Ok s /\ expression_from_sql bare_env s = Ok a /\ e = NRow [a].
Proof. exists (NRow [a]). eexists. each_part. Qed.
Print Assumptions C17_single_row_refuted.
(** ... and a sum under a subscript, where the subscript moves to the last term. *)
Theorem C17_subscript_refuted :
  exists e s, to_sql default_opts e = Ok s /\ e = NSubscript (NBin BAdd a b) (int 1)
    /\ expression_from_sql bare_env s = Ok (NBin BAdd a (NSubscript b (int 1))).
Proof. exists (NSubscript (NBin BAdd a b) (int 1)). eexists. each_part. Qed.
Print Assumptions C17_subscript_refuted.
(** IS DISTINCT FROM has no precedence, so that AND below it is not
    parenthesised and ends up above it. *)
Theorem C17_distinct_from_refuted :
  exists e s, to_sql default_opts e = Ok s /\ e = NBin BDistinct (NBin BAnd a b) c
    /\ expression_from_sql bare_env s = Ok (NBin BAnd a (NBin BDistinct b c)).
Proof. exists (NBin BDistinct (NBin BAnd a b) c). eexists. each_part. Qed.
Print Assumptions C17_distinct_from_refuted.

(** C18.  Also across different layouts. *)
Theorem C18_text_unambiguous : forall en e1 e2 o1 o2 s,
  lexable e1 -> good en [] e1 -> is_expr e1 = true ->
  lexable e2 -> good en [] e2 -> is_expr e2 = true ->
  to_sql o1 e1 = Ok s -> to_sql o2 e2 = Ok s -> e1 = e2.
Proof.
  intros en e1 e2 o1 o2 s L1 G1 E1 L2 G2 E2 S1 S2.
  assert (O : forall e o, to_sql o e = Ok s -> ospaces o < 80).
  { intros e o H. unfold to_sql in H. destruct (Nat.ltb_spec (ospaces o) 80); [assumption|discriminate]. }
  destruct (round_expression en e1 o1 L1 G1 E1 (O _ _ S1)) as (s1 & T1 & R1).
  destruct (round_expression en e2 o2 L2 G2 E2 (O _ _ S2)) as (s2 & T2 & R2). congruence.
Qed.
Print Assumptions C18_text_unambiguous.
(** A stronger form: not even the tokens agree. *)
Theorem C18_tokens_unambiguous : forall en e1 e2 o1 o2,
  lexable e1 -> good en [] e1 -> is_expr e1 = true ->
  lexable e2 -> good en [] e2 -> is_expr e2 = true ->
  lex (sql e1 o1) = lex (sql e2 o2) -> e1 = e2.
Proof.
  intros en e1 e2 o1 o2 L1 G1 E1 L2 G2 E2 S. rewrite !lex_sql in S by assumption.
  pose proof (expression_tokens en e1 G1 E1) as R1. pose proof (expression_tokens en e2 G2 E2) as R2. congruence.
Qed.
Print Assumptions C18_tokens_unambiguous.
Fixpoint arith_size (t : arith) : nat :=
  match t with ABinary _ x y => 1 + arith_size x + arith_size y | _ => 0 end.
Lemma arith_node_inj : forall x y, arith_node x = arith_node y -> x = y.
Proof.
  induction x as [n|z|op x1 IH1 x2 IH2]; intros [m|w|op' y1 y2] H; try discriminate H.
  - now injection H as ->.
  - now injection H as -> _.
  - injection H as H0 H1 H2. rewrite (IH1 _ H1), (IH2 _ H2). f_equal. destruct op, op'; (reflexivity || discriminate H0).
Qed.
Theorem C18_association : forall op op' x y z o1 o2,
  arith_names x -> arith_names y -> arith_names z ->
  sql (arith_node (ABinary op (ABinary op' x y) z)) o1
  <> sql (arith_node (ABinary op x (ABinary op' y z))) o2.
Proof.
  intros op op' x y z o1 o2 Hx Hy Hz H.
  assert (N1 : arith_names (ABinary op (ABinary op' x y) z)) by (cbn; auto).
  assert (N2 : arith_names (ABinary op x (ABinary op' y z))) by (cbn; auto).
  pose proof (C18_tokens_unambiguous bare_env _ _ o1 o2
                (arith_lexable _ N1) (arith_good bare_env _ N1) (arith_expr _)
                (arith_lexable _ N2) (arith_good bare_env _ N2) (arith_expr _) (f_equal lex H)) as E.
  apply arith_node_inj in E. injection E as E1 _.
  pose proof (f_equal arith_size E1) as S. cbn [arith_size] in S. lia.
Qed.
Print Assumptions C18_association.
Example C18_case :
  to_sql default_opts (NBin BMinus (NBin BMinus a b) c) = Ok """a"" - ""b"" - ""c"""
  /\ to_sql default_opts (NBin BMinus a (NBin BMinus b c)) = Ok """a"" - (""b"" - ""c"")".
Proof. each_part. Qed.
(** Outside the fragment different objects print alike. *)
Theorem C18_shape_refuted :
  exists e1 e2 s, to_sql default_opts e1 = Ok s /\ to_sql default_opts e2 = Ok s /\ e1 <> e2
    /\ check e1 = check e2.
Proof.
  exists (NBin BDistinct (NBin BAnd a b) c), (NBin BAnd a (NBin BDistinct b c)). eexists.
  each_part. discriminate.
Qed.
Print Assumptions C18_shape_refuted.

(** C20.  Queries (other than set operations, C27). *)
Theorem C20_query_round_trip : forall en q o,
  lexable q -> good en [] q -> is_q q = true -> ospaces o < 80 ->
  exists s, to_sql o q = Ok s /\ query_from_sql en s = Ok q.
Proof. exact round_query. Qed.
Print Assumptions C20_query_round_trip.
Local Definition sub_query : node :=
  NSelect [NAliased (NFunc FMax [column "x"] no_fopts) "m"; NStar (TRStr "t") unknown]
          (Some (NJoin (NAliasedRel (NTable "t" (Some "s") (Some "cat")) "t" [])
                       (NAliasedRel (NTable "u" None None) "u" ["cc"; "dd"]) JLeft false
                       (Some (JOn (NBin BEq (column_of "t" "a") (column_of "u" "c"))))))
          (Some large) (Some (mkG [GSet [a]; GRollup [b; c]; GSets [[]; [a; b]]; GCube [c]] true))
          (Some (NBin BGt (NFunc FCount [NStar TRNone unknown] no_fopts) (int 1))) true []
          (mkQ [] [mkOrder (column "m") true true; mkOrder a false false] (Some 2%Z) (Some 10%Z)).
Local Definition query : node :=
  NSelect [NStar TRNone unknown]
          (Some (NJoin (NJoin (NAliasedRel sub_query "q" []) (NSample (NTable "s" None None) Bernoulli (int 10))
                              JCross false None)
                       (NUnnest [column "arr"] false) JInner true None))
          (Some (NInQuery (column "m") (NValues [NRow [a; int 1]; NRow [a; int 2]] no_qattrs))) None None false [("w", win)]
          (mkQ [NAliasedRel sub_query "v" []; NAliasedRel (NTableQuery (NTable "t" None None) no_qattrs) "t2" []]
               [] None None).
Example C20_case :
  lexable query /\ good full_env [] query /\ is_q query = true
  /\ exists s, to_sql (mkOpts PRETTY 2) query = Ok s /\ query_from_sql full_env s = Ok query.
Proof.
  assert (L : lexable query) by (apply (lexable_dec 13); vm_compute; reflexivity).
  assert (G : good full_env [] query) by (apply (good_dec full_env 13); vm_compute; reflexivity).
  split; [exact L|]. split; [exact G|]. split; [reflexivity|].
  apply C20_query_round_trip; auto. cbn. lia.
Qed.
(** Different queries have different texts (as C18). *)
Theorem C20_text_unambiguous : forall en q1 q2 o1 o2,
  lexable q1 -> good en [] q1 -> is_q q1 = true ->
  lexable q2 -> good en [] q2 -> is_q q2 = true ->
  lex (sql q1 o1) = lex (sql q2 o2) -> q1 = q2.
Proof.
  intros en e1 e2 o1 o2 L1 G1 E1 L2 G2 E2 S. rewrite !lex_sql in S by assumption.
  pose proof (query_tokens en e1 [] G1 E1 eq_refl) as R1. pose proof (query_tokens en e2 [] G2 E2 eq_refl) as R2.
  rewrite app_nil_r in R1, R2. congruence.
Qed.
Print Assumptions C20_text_unambiguous.

(** C35.  [k] is any text: the query is followed by a closing parenthesis or, as
    the second form, by a blank and a character that no token starts with. *)
Theorem C35_rest_ignored : forall en q o s k,
  lexable q -> good en [] q -> is_q q = true ->
  to_sql o q = Ok s -> query_from_sql en (s ++ ")" ++ k) = Ok q.
Proof.
  intros en q o s k L G Q S. unfold to_sql in S.
  destruct (py_assert (ospaces o <? 80)%nat); [|discriminate]. cbn [bind] in S.
  destruct (printable q); [|discriminate]. injection S as <-.
  unfold query_from_sql. pose proof (reads_lexes _ _ (reads_sql q o L)) as R.
  rewrite R by reflexivity. apply query_tokens; auto.
Qed.
Print Assumptions C35_rest_ignored.
Theorem C35_unknown_character_ignored : forall en q o s k,
  lexable q -> good en [] q -> is_q q = true ->
  to_sql o q = Ok s -> query_from_sql en (s ++ " ;" ++ k) = Ok q.
Proof.
  intros en q o s k L G Q S. unfold to_sql in S.
  destruct (py_assert (ospaces o <? 80)%nat); [|discriminate]. cbn [bind] in S.
  destruct (printable q); [|discriminate]. injection S as <-.
  unfold query_from_sql. pose proof (reads_lexes _ _ (reads_sql q o L)) as R.
  rewrite R by reflexivity. apply query_tokens; auto.
Qed.
Print Assumptions C35_unknown_character_ignored.
Example C35_case :
  query_from_sql bare_env "TABLE ""t"")))) DROP 'TABLE" = Ok (NTableQuery (NTable "t" None None) no_qattrs)
  /\ query_from_sql bare_env "TABLE ""t"" ; DROP TABLE t" = Ok (NTableQuery (NTable "t" None None) no_qattrs)
  /\ to_sql default_opts (NTableQuery (NTable "t" None None) no_qattrs) = Ok "TABLE ""t""".
Proof. each_part. Qed.
(** The same text after an expression is rejected. *)
Theorem C35_expression_rest_rejected : forall en e o s k,
  lexable e -> good en [] e -> is_expr e = true ->
  to_sql o e = Ok s -> expression_from_sql en (s ++ ")" ++ k) = Err SyntaxErr.
Proof.
  intros en e o s k L G Q S. unfold to_sql in S.
  destruct (py_assert (ospaces o <? 80)%nat); [|discriminate]. cbn [bind] in S.
  destruct (printable e); [|discriminate]. injection S as <-.
  unfold expression_from_sql. pose proof (reads_lexes _ _ (reads_sql e o L)) as R.
  rewrite R by reflexivity. cbn [append]. rewrite lex_cons.
  change (next_token ")" k) with (Some (TSym ")"), k). cbn iota.
  pose proof (rb_expr _ _ _ (main _ _ _ G) Q) as E.
  unfold expression_of_tokens.
  rewrite (ex_rd en _ _ _ (parse_fuel (toks e ++ TSym ")" :: lex k)) E); [reflexivity| |reflexivity].
  unfold parse_fuel. rewrite app_length. lia.
Qed.
Print Assumptions C35_expression_rest_rejected.
