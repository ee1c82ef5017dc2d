(** Properties of lambdas (C33). *)
From Coq Require Import String List ZArith Bool Lia.
From Verif Require Import PyStr Printer Types Functions Ast Walk Parser Sql Tokens NodeFacts Good Unvar
  GoodFacts PropertiesLiterals PropertiesRoundTrip SqlReads ClauseFacts.
Import ListNotations.
Open Scope nat_scope.
Open Scope string_scope.
Open Scope list_scope.

(** * What binding parameters means

    [shell e] is [e] without its direct parts [kids e]. *)
Definition shell (e : node) : result node := node_each blank e.
(** An unqualified column with the name of a parameter. *)
Definition is_param (vs : list string) (e : node) : Prop :=
  exists n t, e = NField n TRNone t /\ In n vs.
(** [e'] is [e] with exactly these replaced by references to the parameter. *)
Inductive binds (vs : list string) : node -> node -> Prop :=
| binds_param n t : In n vs -> binds vs (NField n TRNone t) (NVar n)
| binds_node e e' :
    ~ is_param vs e -> shell e' = shell e -> Forall2 (binds vs) (kids e) (kids e') -> binds vs e e'.

(** A shell and the parts determine the object, so that this relation says all about [e']. *)
Lemma shell_ok e : exists s, shell e = Ok s.
Proof. apply (t_total trav_node). intros. now exists NNone. Qed.
Theorem C33_shell_and_parts : forall e e', shell e = shell e' -> kids e = kids e' -> e = e'.
Proof.
  intros e e' S K. destruct (shell_ok e) as [s E]. apply (t_same trav_node e e' s); [exact E| |exact K].
  unfold shell in *. congruence.
Qed.
Print Assumptions C33_shell_and_parts.
Theorem C33_binds_unique : forall vs e a b, binds vs e a -> binds vs e b -> a = b.
Proof.
  intros vs e. induction e as [e IH] using kids_ind. intros a b Ha Hb.
  inversion Ha as [n t Hn|e1 e2 N S F]; subst.
  - inversion Hb as [n' t' Hn'|e1 e2 N S F]; subst; [reflexivity|]. exfalso. apply N. now exists n, t.
  - inversion Hb as [n' t' Hn'|e1 e2 N' S' F']; subst; [exfalso; apply N; now exists n', t'|].
    apply C33_shell_and_parts; [congruence|].
    clear N N' S S' Ha Hb. revert F F'. generalize (kids a), (kids b).
    induction (kids e) as [|k ks IHk]; intros la lb F F'; inversion F; inversion F'; subst; [reflexivity|].
    f_equal.
    + eapply IH; [now left|eassumption..].
    + apply IHk; [intros; eapply IH; [right|..]; eassumption|assumption..].
Qed.
Print Assumptions C33_binds_unique.

(** One step of the construction. *)
Lemma subst_step vs e e' : ~ is_param vs e -> subst vs e = Ok e' -> node_each (subst vs) e = Ok e'.
Proof.
  intros N H.
  destruct e; cbn [subst node_each] in *; try exact H; try discriminate H;
    try (unbind;
         repeat match goal with E : _ = Ok _ |- _ => rewrite E; cbn [bind]; clear E end; reflexivity).
  - destruct table as [|s|v]; cbn [tref_map bind]; try exact H.
    + destruct (mem name vs) eqn:M; [|exact H]. exfalso. apply N. exists name, t. split; [reflexivity|].
      unfold mem in M. apply existsb_exists in M as (x & Hx & Ex). apply String.eqb_eq in Ex. now subst.
    + unbind. rewrite E. reflexivity.
  - destruct table as [|s|v]; cbn [tref_map bind]; try exact H. unbind. rewrite E. reflexivity.
Qed.

(** Building a lambda binds the parameters, everywhere in the body. *)
Theorem C33_parameters_bound : forall vs body e,
  from_generic_expr vs body = Ok e -> exists b, e = NLambda vs b /\ binds vs body b /\ NoDup vs.
Proof.
  intros vs body e H. unfold from_generic_expr, mk in H. unbind. exists a. split; [reflexivity|]. split.
  - clear E0. revert a E. induction body as [e IH] using kids_ind. intros a E.
    assert (D : is_param vs e \/ ~ is_param vs e).
    { destruct e; try (right; intros (n & t' & X & _); discriminate X).
      destruct table; try (right; intros (n & t' & X & _); discriminate X).
      destruct (in_dec string_dec name vs) as [I|I]; [left; now exists name, t|right].
      intros (n & t' & X & Hn). injection X as -> ->. now apply I. }
    destruct D as [(n & t & -> & Hn)|N].
    + cbn [subst] in E. replace (mem n vs) with true in E.
      * cbv iota in E. injection E as <-. now constructor.
      * symmetry. unfold mem. apply existsb_exists. exists n. split; [exact Hn|apply String.eqb_refl].
    + apply subst_step in E; [|exact N].
      constructor; [exact N| |].
      * destruct (shell_ok e) as [s Es]. unfold shell in *. rewrite (t_shell trav_node _ _ _ _ E Es). now symmetry.
      * apply (t_parts trav_node) in E. revert E IH. generalize (kids a).
        induction (kids e) as [|k ks IHk]; intros l F IH; inversion F; subst; constructor.
        -- apply IH; [now left|assumption].
        -- apply IHk; [assumption|intros; apply IH; [now right|assumption]].
  - clear E. rename E0 into E. cbn [check] in E. unbind.
    assert (D : distinct_names vs = true) by (destruct (distinct_names vs); [reflexivity|discriminate]).
    clear - D. induction vs as [|v vs IH]; [constructor|]. cbn [distinct_names] in D.
    apply andb_true_iff in D as [D1 D2]. constructor; [|now apply IH].
    intro Hv. apply negb_true_iff in D1. enough (mem v vs = true) by congruence.
    unfold mem. apply existsb_exists. exists v. split; [exact Hv|apply String.eqb_refl].
Qed.
Print Assumptions C33_parameters_bound.

(** Objects within an object, itself included. *)
Inductive inside (x : node) : node -> Prop :=
| inside_here : inside x x
| inside_part k e : In k (kids e) -> inside x k -> inside x e.

(** Nothing is left to bind. *)
Theorem C33_nothing_left : forall vs body b x, binds vs body b -> inside x b -> ~ is_param vs x.
Proof.
  intros vs body. induction body as [e IH] using kids_ind. intros b x B I.
  inversion B as [n t Hn|e1 e2 N S F]; subst.
  - inversion I as [|k e' Hk Hi]; subst; [|destruct Hk]. intros (m & u & X & _). discriminate X.
  - inversion I as [|k e' Hk Hi]; subst.
    + intros (m & u & -> & Hm). apply N.
      destruct (shell_ok e) as [s Es]. rewrite Es in S. unfold shell in *.
      pose proof (node_class _ _ _ Es) as C1. pose proof (node_class _ _ _ S) as C2.
      cbn [node_each tref_map bind] in S. injection S as <-.
      destruct e; try discriminate C1. destruct table; cbn [node_each tref_map bind] in Es; try discriminate Es.
      injection Es as -> ->. now exists m, u.
    + clear B N S I. revert F Hk IH. generalize (kids b).
      induction (kids e) as [|q ks IHk]; intros l F Hk IH; inversion F; subst; [destruct Hk|].
      destruct Hk as [->|Hk].
      * eapply IH; [now left|eassumption..].
      * eapply IHk; [eassumption..|]. intros; eapply IH; [right|..]; eassumption.
Qed.
Print Assumptions C33_nothing_left.

(** The body can be rebuilt exactly if there is no table in it (in a sub-query). *)
Theorem C33_rebuilt : forall vs body,
  (exists b, subst vs body = Ok b) <-> forall n s c, ~ inside (NTable n s c) body.
Proof.
  intros vs body. split.
  - induction body as [e IH] using kids_ind. intros [b H] n s c I.
    inversion I as [|k e' Hk Hi]; subst; [discriminate H|].
    assert (N : ~ is_param vs e). { intros (m & t & -> & _). destruct Hk. }
    apply subst_step in H; [|exact N]. apply (t_parts trav_node) in H.
    assert (exists b', subst vs k = Ok b') as Hb.
    { clear -H Hk. revert H Hk. generalize (kids b). induction (kids e) as [|q ks IHk]; intros l F Hk; [destruct Hk|].
      inversion F; subst. destruct Hk as [->|Hk]; [eexists; eassumption|]. eapply IHk; eassumption. }
    exact (IH k Hk Hb n s c Hi).
  - induction body as [e IH] using kids_ind. intro T.
    destruct (t_total trav_node (subst vs) e) as [e' He].
    { intros k Hk. apply IH; [exact Hk|]. intros n s c I. apply (T n s c). econstructor; eassumption. }
    destruct e; cbn [subst node_each] in *; try (eexists; exact He); try (eexists; reflexivity);
      try (unbind;
           repeat match goal with E : _ = Ok _ |- _ => rewrite E; cbn [bind]; clear E end; eexists; reflexivity).
    + destruct table; cbn [tref_map bind] in He; [destruct (mem name vs)|..]; eauto.
      destruct (subst vs v); cbn [bind] in *; [eauto|discriminate].
    + destruct table; cbn [tref_map bind] in He; eauto.
      destruct (subst vs v); cbn [bind] in *; [eauto|discriminate].
    + exfalso. eapply T. constructor.
Qed.
Print Assumptions C33_rebuilt.

(** Reading the text of a lambda gives the lambda; and it is what
    [Lambda.from_generic_expr] makes of the body with columns in place of the parameters. *)
Theorem C33_round_trip : forall en ws b o,
  lexable (NLambda ws b) -> good en [] (NLambda ws b) -> ospaces o < 80 ->
  (exists s, to_sql o (NLambda ws b) = Ok s /\ expression_from_sql en s = Ok (NLambda ws b))
  /\ from_generic_expr ws (unvar [] b) = Ok (NLambda ws b).
Proof.
  intros en ws b o L G Ho. split; [now apply C17_expression_round_trip|].
  destruct (fine_typed en (NLambda ws b) (conj (conj L G) eq_refl)) as [t T].
  unfold wrapped in T.
  inversion G as [vs e H K]; subst. specialize (K b (or_introl eq_refl)). cbn [scope] in K. rewrite app_nil_r in K.
  unfold good_here in H. apply andb_true_iff in H as [_ H].
  apply andb_true_iff in H as [H E]. apply andb_true_iff in H as [N _].
  unfold from_generic_expr.
  rewrite (subst_unvar en ws b K) with (bs' := ws).
  - cbn [bind]. rewrite (unvar_same en ws b K) by auto. unfold mk.
    destruct (check (NLambda ws b)); [reflexivity|discriminate T].
  - destruct ws; discriminate.
  - unfold is_item. now rewrite E.
  - intro n. cbn. now rewrite orb_false_r.
  - auto.
Qed.
Print Assumptions C33_round_trip.

(** Cases.  (x, y) -> t.x + x * (z -> y = z), built from columns. *)
Local Definition body : node :=
  NBin BAnd (NBin BEq (NField "x" (TRStr "t") unknown) (NBin BAdd (column "x") (column "u")))
            (NFunc FNullIf [column "y"; NLambda ["z"] (NBin BGt (column "y") (NVar "z"))] no_fopts).
Local Definition bound_body : node :=
  NBin BAnd (NBin BEq (NField "x" (TRStr "t") unknown) (NBin BAdd (NVar "x") (column "u")))
            (NFunc FNullIf [NVar "y"; NLambda ["z"] (NBin BGt (NVar "y") (NVar "z"))] no_fopts).
Example C33_case : from_generic_expr ["x"; "y"] body = Ok (NLambda ["x"; "y"] bound_body).
Proof. vm_compute. reflexivity. Qed.
Example C33_case_binds : binds ["x"; "y"] body bound_body.
Proof.
  destruct (C33_parameters_bound _ _ _ C33_case) as (b & H & B & _). injection H as <-. exact B.
Qed.
Example C33_case_good : lexable (NLambda ["x"; "y"] bound_body) /\ good full_env [] (NLambda ["x"; "y"] bound_body).
Proof. split; [now apply (lexable_dec 9)|now apply (good_dec _ 9)]. Qed.
Example C33_case_text :
  to_sql default_opts (NLambda ["x"; "y"] bound_body)
  = Ok "(x,y) -> ""t"".""x"" = x + ""u"" AND NULLIF(y,z -> y > z)".
Proof. vm_compute. reflexivity. Qed.
Example C33_case_no_table : forall n s c, ~ inside (NTable n s c) body.
Proof. apply (C33_rebuilt ["x"; "y"]). now exists bound_body. Qed.
(** Names used twice. *)
Example C33_case_twice : from_generic_expr ["x"; "x"] (column "x") = Err AssertionError.
Proof. vm_compute. reflexivity. Qed.

(** A condition on a sub-query over a table cannot be the body of a lambda. *)
Theorem C33_subquery_refuted :
  exists ws b, check b = Ok (Some boolean) /\ NoDup ws /\ from_generic_expr ws b = Err TypeError.
Proof.
  exists ["x"], (NInQuery (column "x") (NSelect [column "a"] (Some (NTable "t" None None)) None None None false [] no_qattrs)).
  split; [vm_compute; reflexivity|]. split; [|vm_compute; reflexivity].
  constructor; [now intros []|constructor].
Qed.
Print Assumptions C33_subquery_refuted.
