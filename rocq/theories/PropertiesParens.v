(** C67: no text that is read as the same expression has fewer parentheses than the
    printed text.

    [demand] (Parens.v) is what the rules of the grammar alone ask for; [opens] counts
    the parentheses of a text, whatever its layout and without those in strings,
    quoted names and comments. *)
From Coq Require Import String List ZArith NArith Bool Arith Lia.
From Verif Require Import PyStr Printer Types Inference Lexer Functions Ast Sql Tokens SqlReads Parser Good Parens SmallTrees Accepts
  PropertiesLiterals PropertiesReads PropertiesRoundTrip PropertiesAccepts.
Import ListNotations.
Open Scope nat_scope.
Open Scope string_scope.
Open Scope list_scope.

(** Nothing is read as [e] without the parentheses [e] demands, in any spelling. *)
Theorem C67_needed : forall en s e, expression_from_sql en s = Ok e -> demand e <= opens (lex s).
Proof.
  intros en s e H. apply C63_expression in H. apply means_opens in H. cbn [low] in H. now rewrite demand_at_one in H.
Qed.
Print Assumptions C67_needed.

(** The printed text has these and no others, in both layouts. *)
Theorem C67_printed : forall en e o, lexable e -> good en [] e -> counted e -> opens (lex (sql e o)) = demand e.
Proof. intros en e o L G C. rewrite C19_tokens by exact L. exact (printed_opens en e [] G C false). Qed.
Print Assumptions C67_printed.

Theorem C67_fewest : forall en e o, lexable e -> good en [] e -> counted e -> is_expr e = true -> ospaces o < 80 ->
  exists s, to_sql o e = Ok s /\ expression_from_sql en s = Ok e /\
    forall s', expression_from_sql en s' = Ok e -> opens (lex s) <= opens (lex s').
Proof.
  intros en e o L G C E O. destruct (C17_expression_round_trip en e o L G E O) as (s & P & R). exists s.
  split; [exact P|]. split; [exact R|]. intros s' H. apply C67_needed in H.
  assert (X : s = sql e o).
  { unfold to_sql in P. destruct (py_assert _); [|discriminate P]. cbn [bind] in P. destruct (printable e); [|discriminate P].
    cbn [bind] in P. now injection P as <-. }
  rewrite X, (C67_printed en e o L G C). exact H.
Qed.
Print Assumptions C67_fewest.

(** * Trees of any shape *)
Lemma arith_counted a : counted (arith_node a).
Proof.
  induction a as [n|z|op a IHa b IHb]; (constructor; [reflexivity|]); cbn [arith_node kids tref_kids]; intros x I; cbn [In] in I.
  - contradiction.
  - contradiction.
  - destruct I as [<-|[<-|[]]]; assumption.
Qed.
Lemma cond_counted c : counted (cond_node c).
Proof.
  induction c as [op a b|a|a b c|a b l|a IHa b IHb|a IHa b IHb|a IHa]; (constructor; [reflexivity|]); cbn [cond_node kids]; intros x I.
  - destruct I as [<-|[<-|[]]]; apply arith_counted.
  - destruct I as [<-|[]]; apply arith_counted.
  - destruct I as [<-|[<-|[<-|[]]]]; apply arith_counted.
  - destruct I as [<-|I]; [apply arith_counted|]. apply in_map_iff in I as (y & <- & _). apply arith_counted.
  - destruct I as [<-|[<-|[]]]; assumption.
  - destruct I as [<-|[<-|[]]]; assumption.
  - destruct I as [<-|[]]; assumption.
Qed.
(** For arithmetic over columns and integers and conditions over it, whatever the shape. *)
Theorem C67_arithmetic : forall en a o, arith_names a -> ospaces o < 80 ->
  exists s, to_sql o (arith_node a) = Ok s /\ expression_from_sql en s = Ok (arith_node a) /\
    forall s', expression_from_sql en s' = Ok (arith_node a) -> opens (lex s) <= opens (lex s').
Proof.
  intros en a o N O. exact (C67_fewest en _ o (arith_lexable a N) (arith_good en a N) (arith_counted a) (arith_expr a) O).
Qed.
Print Assumptions C67_arithmetic.
Theorem C67_conditions : forall en c o, cond_names c -> ospaces o < 80 ->
  exists s, to_sql o (cond_node c) = Ok s /\ expression_from_sql en s = Ok (cond_node c) /\
    forall s', expression_from_sql en s' = Ok (cond_node c) -> opens (lex s) <= opens (lex s').
Proof.
  intros en c o N O. exact (C67_fewest en _ o (cond_lexable c N) (cond_good en c N) (cond_counted c) (cond_expr c) O).
Qed.
Print Assumptions C67_conditions.

(** * Cases *)
Local Definition a := column "a".
Local Definition b := column "b".
Local Definition c := column "c".
Local Definition one := NLit (LInt 1) (TSimple SInteger).
Local Definition mixed : node :=
  NBin BOr (NBin BAnd (NUn UNot (NBin BAnd (NBin BGt a b) (NBin BLt b c))) (NUn UIsNull (NUn UNot (NBin BGt a b))))
    (NInList (NBin BMinus a (NBin BMinus b (NBin BMul (NUn UNeg (NBin BAdd a c)) one)))
      [NFunc FSum [NBin BAdd a one] no_fopts; NCase [(NBin BGt a b, one)] (Some (NBin BMul (NBin BAdd a b) c)) None]).
Example C67_case_mixed : lexable mixed /\ good full_env [] mixed /\ counted mixed /\ is_expr mixed = true.
Proof.
  split; [now apply (lexable_dec 9)|]. split; [now apply (good_dec _ 9)|]. split; [now apply (counted_dec 9)|reflexivity].
Qed.
Example C67_case_text :
  sql mixed default_opts =
    "NOT (""a"" > ""b"" AND ""b"" < ""c"") AND (NOT ""a"" > ""b"") IS NULL OR ""a"" - (""b"" - -(""a"" + ""c"") * 1) IN (SUM(""a"" + 1),CASE  WHEN ""a"" > ""b"" THEN 1 ELSE (""a"" + ""b"") * ""c"" END)"
  /\ demand mixed = 7 /\ opens (lex (sql mixed default_opts)) = 7.
Proof. vm_compute. repeat split. Qed.
(** Leaving out any pair that stands around an operand gives another expression, and
    more of them are read as the same one. *)
Example C67_case_other :
  expression_from_sql bare_env "a - b - c" <> expression_from_sql bare_env "a - (b - c)"
  /\ expression_from_sql bare_env "((a)) - ((b - c))" = expression_from_sql bare_env "a - (b - c)"
  /\ opens (lex "((a)) - ((b - c))") = 4 /\ opens (lex "a - (b - c)") = 1.
Proof. vm_compute. repeat split. discriminate. Qed.
(** Parentheses in strings, names and comments are not counted. *)
Example C67_case_text_only : opens (lex "'((' /* ( */ = ""("" -- (") = 0.
Proof. reflexivity. Qed.

(** * A concatenation is printed with more than it needs

    [OPERATOR_PRECEDENCE[Concatenate] = 5] (functions/common.py 106-108) is meant for the
    operator [||], but a concatenation is printed as a call. *)
Local Definition joined : node := NBin BMul (NFunc FConcatenate [a; b] no_fopts) c.
Theorem C67_concatenation_refuted :
  ~ (forall en e o s, lexable e -> good en [] e -> is_expr e = true -> expression_from_sql en s = Ok e ->
       opens (lex (sql e o)) <= opens (lex s)).
Proof.
  intro H. specialize (H full_env joined default_opts "CONCAT(a, b) * c").
  assert (X : opens (lex (sql joined default_opts)) <= opens (lex "CONCAT(a, b) * c")).
  { apply H; [now apply (lexable_dec 5)|now apply (good_dec _ 5)|reflexivity|vm_compute; reflexivity]. }
  vm_compute in X. lia.
Qed.
Print Assumptions C67_concatenation_refuted.
Example C67_case_concatenation : sql joined default_opts = "(CONCAT(""a"",""b"")) * ""c""".
Proof. vm_compute. reflexivity. Qed.
