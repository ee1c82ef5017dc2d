(** Property theorems C32 and C38: the function registry. *)
From Coq Require Import String List Bool ZArith.
From Verif Require Import PyStr Types Inference Printer Functions Ast Sql TypeParser Parser FunctionFacts.
Import ListNotations.
Open Scope string_scope.

(** C32.  A name denotes at most one class, a class has one name, and the
    printed call starts with that name. *)
Theorem C32_registry_bijection : forall en n f,
  names_to_functions en n = Some f <-> fn_name f = n /\ loaded en (fn_module f) = true.
Proof. exact registry. Qed.
Print Assumptions C32_registry_bijection.
Theorem C32_names_distinct : forall f g, fn_name f = fn_name g -> f = g.
Proof. exact fn_name_inj. Qed.
Print Assumptions C32_names_distinct.
Theorem C32_printed_name : forall f args fo o s,
  to_sql o (NFunc f args fo) = Ok s -> exists r, s = fn_name f ++ r.
Proof.
  intros f args fo o s H. destruct (call_prefix f args fo o) as [r E]. exists r.
  unfold to_sql in H. destruct (py_assert _) as [u|]; cbn [bind] in H; [|discriminate].
  destruct (printable _) as [v|]; cbn [bind] in H; congruence.
Qed.
Print Assumptions C32_printed_name.
(** A call that the parser accepts, in any letter case of the name: the class
    is the one of that name and the arguments are those read, in their order. *)
Theorem C32_call_parsed : forall en i c e,
  v_call en [i] c = Ok e ->
  exists name f args, visit_ident i = Ok name /\ upper name = fn_name f
    /\ c_args c = Ok args /\ loaded en (fn_module f) = true
    /\ exists args' fo, e = NFunc f args' fo
       /\ ((f = FApproxPercentile -> length args <> 3) -> args' = args).
Proof. exact v_call_ok. Qed.
Print Assumptions C32_call_parsed.
Example C32_case :
  expression_from_sql bare_env "max_by(a, 1, 2)"
  = Ok (NFunc FMaxBy [NField "a" TRNone unknown; NLit (LInt 1) integer; NLit (LInt 2) integer] no_fopts)
  /\ names_to_functions bare_env "MAX_BY" = Some FMaxBy.
Proof. vm_compute; split; reflexivity. Qed.
(** The exception: with a weight the arguments of APPROX_PERCENTILE change places. *)
Theorem C32_approx_percentile_refuted :
  expression_from_sql bare_env "APPROX_PERCENTILE(1, 2, 3)"
  = Ok (NFunc FApproxPercentile [NLit (LInt 1) integer; NLit (LInt 3) integer; NLit (LInt 2) integer] no_fopts)
  /\ to_sql default_opts
       (NFunc FApproxPercentile [NLit (LInt 1) integer; NLit (LInt 3) integer; NLit (LInt 2) integer] no_fopts)
     = Ok "APPROX_PERCENTILE(1,3,2)".
Proof. vm_compute; split; reflexivity. Qed.
Print Assumptions C32_approx_percentile_refuted.

(** C38.  Without further imports exactly the classes of three modules are
    missing, and calling them raises AssertionError whatever the arguments. *)
Theorem C38_registered_without_imports : forall f,
  names_to_functions bare_env (fn_name f) = Some f
  <-> fn_module f <> MConditional /\ fn_module f <> MDatetime /\ fn_module f <> MMath.
Proof. exact bare_registry. Qed.
Print Assumptions C38_registered_without_imports.
Theorem C38_unregistered_call_raises : forall f i c,
  fn_module f = MConditional \/ fn_module f = MDatetime \/ fn_module f = MMath ->
  visit_ident i = Ok (fn_name f) ->
  v_call bare_env [i] c = Err AssertionError.
Proof.
  intros f i c Hm Hi. unfold v_call, v_names. cbn [each]. rewrite Hi. cbn [bind].
  rewrite names_upper, bare_registry_none; [reflexivity|].
  unfold always_loaded; intuition congruence.
Qed.
Print Assumptions C38_unregistered_call_raises.
Example C38_case :
  expression_from_sql bare_env "COALESCE(1, 2)" = Err AssertionError
  /\ expression_from_sql full_env "COALESCE(1, 2)"
     = Ok (NFunc FCoalesce [NLit (LInt 1) integer; NLit (LInt 2) integer] no_fopts)
  /\ expression_from_sql bare_env "power(2, 3)" = Err AssertionError
  /\ expression_from_sql bare_env "now()" = Err AssertionError.
Proof. vm_compute; repeat split. Qed.
