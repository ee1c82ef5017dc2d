(** Property theorems C19 and C21: layout does not change the tokens. *)
From Coq Require Import String List Bool ZArith.
From Verif Require Import PyStr Types Inference Lexer Printer Functions Ast Sql TypeParser Parser Tokens SqlReads.
Import ListNotations.
Open Scope string_scope.

(** C19, C21.  The domain is [lexable] (Tokens.v): every literal text, alias
    and name of the object has no line break and has quotes only in doubled
    pairs, names printed without quotes have the form of a word, decimals print
    without exponent, no '-' is printed directly in front of another one, and
    the object has no part that is printed as text of another grammar (interval
    literals, floats, NORMALIZE, UNNEST WITH ORDINALITY, fields of an
    expression).  Nothing is required of the shape of the tree.  [toks] is the
    token sequence written down without reference to any layout. *)
Theorem C19_tokens : forall e o, lexable e -> lex (sql e o) = toks e.
Proof. intros e o H. now apply lex_sql. Qed.
Print Assumptions C19_tokens.
Theorem C19_pretty_expression : forall en e o1 o2 s1 s2,
  lexable e -> to_sql o1 e = Ok s1 -> to_sql o2 e = Ok s2 ->
  lex s1 = lex s2 /\ expression_from_sql en s1 = expression_from_sql en s2.
Proof.
  intros en e o1 o2 s1 s2 H A B. unfold to_sql in A, B.
  destruct (py_assert (Nat.ltb (ospaces o1) 80)); cbn [bind] in A; [|discriminate].
  destruct (py_assert (Nat.ltb (ospaces o2) 80)); cbn [bind] in B; [|discriminate].
  destruct (printable e); cbn [bind] in A, B; [|discriminate].
  injection A as <-. injection B as <-.
  unfold expression_from_sql. rewrite !lex_sql by exact H. split; reflexivity.
Qed.
Print Assumptions C19_pretty_expression.
Theorem C21_pretty_query : forall en q o1 o2 s1 s2,
  lexable q -> to_sql o1 q = Ok s1 -> to_sql o2 q = Ok s2 ->
  lex s1 = lex s2 /\ query_from_sql en s1 = query_from_sql en s2.
Proof.
  intros en q o1 o2 s1 s2 H A B.
  destruct (C19_pretty_expression en q o1 o2 s1 s2 H A B) as [E _].
  split; [exact E|]. unfold query_from_sql. now rewrite E.
Qed.
Print Assumptions C21_pretty_query.

(** A CASE with a window aggregate and a conjunction: the texts differ. *)
Local Definition col n := NField n TRNone unknown.
Local Definition win : window node :=
  mkWindow None [mkOrder (col "b") true false] [col "a"] FTRows (BUnbounded false) BCurrent.
Local Definition big : node :=
  NBin BAnd
    (NBin BGt (NFunc FSum [col "x"] (mkFopts [] (Some (NBin BLt (col "y") (NLit (LInt 3) integer)))
                                             (Some win) false)) (NLit (LInt 0) integer))
    (NInList (NCase [(NBin BEq (col "k 1") (NLit (LStr "a''b") (TVarchar (Some 4%Z))), NLit (LInt 1) integer)]
                    (Some (NLit (LInt 2) integer)) None)
             [NLit (LInt 1) integer; NLit (LInt (-7)) integer]).
Example C19_case :
  lexable big /\ sql big default_opts <> sql big (mkOpts PRETTY 4)
  /\ exists s1 s2, to_sql default_opts big = Ok s1 /\ to_sql (mkOpts PRETTY 4) big = Ok s2
     /\ expression_from_sql bare_env s2 = Ok big.
Proof.
  split; [apply (lexable_dec 9); vm_compute; reflexivity|].
  split; [vm_compute; discriminate|].
  eexists _, _. split; [vm_compute; reflexivity|]. split; [vm_compute; reflexivity|].
  vm_compute; reflexivity.
Qed.
Local Definition sub_query : node :=
  NSelect [NAliased (NFunc FMax [col "x"] no_fopts) "m"; NStar (TRStr "t") unknown]
          (Some (NJoin (NAliasedRel (NTable "t" (Some "s") None) "t" [])
                       (NAliasedRel (NTable "u" None None) "u" ["c"; "d"]) JLeft false
                       (Some (JOn (NBin BEq (NField "a" (TRStr "t") unknown) (NField "c" (TRStr "u") unknown))))))
          (Some big) (Some (mkG [GSet [col "a"]; GRollup [col "b"; col "c"]] false)) None true []
          (mkQ [] [mkOrder (col "m") true true] (Some 2%Z) (Some 10%Z)).
Local Definition big_query : node :=
  NSelect [NStar TRNone unknown] (Some (NAliasedRel sub_query "q" []))
          (Some (NInQuery (col "m") sub_query)) None None false [("w", win)]
          (mkQ [NAliasedRel sub_query "v" []] [] None None).
Example C21_case :
  lexable big_query /\ sql big_query default_opts <> sql big_query (mkOpts PRETTY 4)
  /\ is_ok (to_sql default_opts big_query) = true /\ is_ok (to_sql (mkOpts PRETTY 4) big_query) = true
  /\ query_from_sql bare_env (sql big_query (mkOpts PRETTY 4)) = Ok big_query.
Proof.
  split; [apply (lexable_dec 12); vm_compute; reflexivity|].
  split; [vm_compute; discriminate|]. vm_compute. auto.
Qed.

(** Without the condition on line breaks: the pretty text of a window has a
    different literal than the default text, and even the default text of a
    CASE changes a literal. *)
Local Definition two_lines : string := "a" ++ nls ++ "b".
Local Definition in_case : node :=
  NCase [(col "x", NLit (LStr two_lines) (TVarchar (Some 3%Z)))] None None.
Theorem C19_line_break_refuted :
  exists e s1 s2 e1 e2, to_sql default_opts e = Ok s1 /\ to_sql (mkOpts PRETTY 4) e = Ok s2
    /\ expression_from_sql bare_env s1 = Ok e1 /\ expression_from_sql bare_env s2 = Ok e2
    /\ e1 <> e2.
Proof.
  exists (NFunc FCount [col "x"]
            (mkFopts [] None (Some (mkWindow None [] [NLit (LStr two_lines) (TVarchar (Some 3%Z))]
                                             FTRows (BUnbounded false) BCurrent)) false)).
  eexists _, _, _, _. split; [vm_compute; reflexivity|]. split; [vm_compute; reflexivity|].
  split; [vm_compute; reflexivity|]. split; [vm_compute; reflexivity|]. discriminate.
Qed.
Print Assumptions C19_line_break_refuted.
Theorem C19_default_case_refuted :
  exists e s e1, to_sql default_opts e = Ok s /\ expression_from_sql bare_env s = Ok e1 /\ e1 <> e.
Proof.
  exists in_case. eexists _, _. split; [vm_compute; reflexivity|].
  split; [vm_compute; reflexivity|]. discriminate.
Qed.
Print Assumptions C19_default_case_refuted.
