(** The function registry. *)
From Coq Require Import String List Bool Arith.
From Verif Require Import PyStr StrFacts Types Printer TypeParser Functions Ast Sql Parser.
Import ListNotations.
Open Scope string_scope.

Lemma all_fns_complete f : In f all_fns.
Proof. destruct f; cbn; tauto. Qed.

Definition fn_eq_dec (f g : fn) : {f = g} + {f <> g}.
Proof. decide equality. Defined.

Lemma names_unique :
  forallb (fun f => forallb (fun g => implb (String.eqb (fn_name f) (fn_name g))
                                            (if fn_eq_dec f g then true else false)) all_fns) all_fns
  = true.
Proof. vm_compute; reflexivity. Qed.

Lemma fn_name_inj f g : fn_name f = fn_name g -> f = g.
Proof.
  intro E. pose proof names_unique as H.
  rewrite forallb_forall in H. specialize (H f (all_fns_complete f)).
  rewrite forallb_forall in H. specialize (H g (all_fns_complete g)).
  rewrite E, String.eqb_refl in H. destruct (fn_eq_dec f g); [assumption | discriminate].
Qed.

Lemma registry en n f :
  names_to_functions en n = Some f <-> fn_name f = n /\ loaded en (fn_module f) = true.
Proof.
  unfold names_to_functions; split.
  - intro H. apply find_some in H. destruct H as [_ H].
    apply andb_true_iff in H; destruct H as [H1 H2]. apply String.eqb_eq in H1. auto.
  - intros [H1 H2].
    destruct (find _ all_fns) as [g|] eqn:E.
    + apply find_some in E. destruct E as [_ E].
      apply andb_true_iff in E; destruct E as [E _]. apply String.eqb_eq in E.
      f_equal; apply fn_name_inj; congruence.
    + pose proof (find_none _ _ E f (all_fns_complete f)) as E'; cbv beta in E'.
      rewrite H1, String.eqb_refl, H2 in E'; discriminate.
Qed.

Lemma names_upper f : upper (fn_name f) = fn_name f.
Proof. destruct f; reflexivity. Qed.

(** The module is one of those builder/convert.py imports. *)
Definition always_loaded (f : fn) : Prop :=
  fn_module f <> MConditional /\ fn_module f <> MDatetime /\ fn_module f <> MMath.
Lemma bare_registry f :
  names_to_functions bare_env (fn_name f) = Some f <-> always_loaded f.
Proof.
  rewrite registry. unfold always_loaded, loaded, bare_env. cbn [e_conditional e_datetime e_math].
  split.
  - intros [_ H]. destruct (fn_module f); cbn in H; try discriminate; repeat split; discriminate.
  - intros (H1 & H2 & H3). split; [reflexivity|]. destruct (fn_module f); congruence.
Qed.
Lemma bare_registry_none f : ~ always_loaded f -> names_to_functions bare_env (fn_name f) = None.
Proof.
  intro H. destruct (names_to_functions bare_env (fn_name f)) as [g|] eqn:E; [|reflexivity].
  exfalso; apply H. apply registry in E as E'. destruct E' as [E' _].
  apply fn_name_inj in E'; subst g. now apply bare_registry.
Qed.

Lemma mk_same e x : mk e = Ok x -> x = e.
Proof. unfold mk; destruct (check e); cbn; congruence. Qed.

Lemma from_args_order f args kw fo e :
  from_args f args kw fo = Ok e ->
  (f = FApproxPercentile -> length args <> 3) ->
  e = NFunc f args fo.
Proof.
  unfold from_args. intros H Hp.
  destruct (py_assert _) as [?u|]; cbn [bind] in H; [|discriminate].
  destruct (existsb is_none args && _)%bool; [discriminate|].
  destruct f; try (now apply mk_same in H).
  - destruct args as [|a [|b [|c [|d r]]]]; try (now apply mk_same in H).
    exfalso; now apply Hp.
  - destruct args as [|a [|b [|c [|d r]]]]; try discriminate; now apply mk_same in H.
Qed.

Lemma call_prefix f args fo o :
  exists r, sql (NFunc f args fo) o = fn_name f ++ r.
Proof.
  unfold sql. cbn [sql_n]. destruct (fn_bare f).
  - exists ""; now rewrite sapp_nil_r.
  - unfold call_sql. eexists; reflexivity.
Qed.

(** Calls through the parser. *)
Lemma v_call_ok en i c e :
  v_call en [i] c = Ok e ->
  exists name f args, visit_ident i = Ok name /\ upper name = fn_name f
    /\ c_args c = Ok args /\ loaded en (fn_module f) = true
    /\ exists args' fo, e = NFunc f args' fo
       /\ ((f = FApproxPercentile -> length args <> 3) -> args' = args).
Proof.
  unfold v_call, v_names. cbn [each]. intro H.
  destruct (visit_ident i) as [name|] eqn:Ei; cbn [bind] in H; [|discriminate].
  destruct (names_to_functions en (upper name)) as [f|] eqn:Ef; [|discriminate].
  apply registry in Ef. destruct Ef as [Ef Hl].
  match type of H with (bind ?x _ = _) => destruct x as [w|] end; cbn [bind] in H; [|discriminate].
  match type of H with (bind ?x _ = _) => destruct x as [ob|] end; cbn [bind] in H; [|discriminate].
  match type of H with (bind ?x _ = _) => destruct x as [fi|] end; cbn [bind] in H; [|discriminate].
  destruct (c_args c) as [args|]; cbn [bind] in H; [|discriminate].
  exists name, f, args. repeat (split; [auto|]).
  assert (HX : exists args' fo, e = NFunc f args' fo).
  { unfold from_args in H.
    destruct (py_assert _) as [?u|]; cbn [bind] in H; [|discriminate].
    destruct (existsb is_none args && _)%bool; [discriminate|].
    destruct f; try (apply mk_same in H; subst e; do 2 eexists; reflexivity).
    - destruct args as [|a [|b [|x [|d r]]]];
        apply mk_same in H; subst e; do 2 eexists; reflexivity.
    - destruct args as [|a [|b [|x [|d r]]]]; try discriminate;
        apply mk_same in H; subst e; do 2 eexists; reflexivity. }
  destruct HX as (args' & fo & ->). exists args', fo. split; [reflexivity|].
  intro Hp. apply from_args_order in H; [|exact Hp]. congruence.
Qed.
