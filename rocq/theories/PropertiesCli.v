(** Properties of resolving a query twice and of the commands of cli.py (C52, C53). *)
From Coq Require Import String List ZArith Bool Lia.
From Verif Require Import PyStr Printer Types Inference Lexer TypeParser TypeRoundTrip TypeObjects PropertiesTypes Functions Ast Walk Sql Tokens Parser Good ParseWhole NodeFacts Schema
  PropertiesReads PropertiesRoundTrip ClauseFacts PropertiesLiterals PropertiesLambda PropertiesResolve PropertiesScope ColumnTypes SqlReads Cli.
Import ListNotations.
Open Scope nat_scope.
Open Scope string_scope.
Open Scope list_scope.

(** * Resolving changes nothing but the types of columns *)
Lemma resolves_erase sc e : forall e', resolves sc e e' -> erase e' = erase e.
Proof.
  induction e as [e IH] using kids_ind. intros e' R.
  destruct R as [| | | | | | | |e e' C T S F]; try reflexivity.
  assert (K : map erase (kids e') = map erase (kids e)).
  { clear -IH F. induction F as [|a b l m H F IHF]; [reflexivity|]. cbn [map]. f_equal.
    - apply IH; [now left|exact H].
    - apply IHF. intros. apply IH; [now right|assumption]. }
  pose proof (node_fmap_same erase e e' S K) as N.
  assert (C' : ~ is_column e').
  { destruct (shell_ok e) as [s Es]. unfold shell in *. rewrite Es in S. apply node_class in S, Es.
    rewrite S in Es. intro X. apply C. destruct e', e; try destruct X; try discriminate Es; exact I. }
  destruct e, e'; try exact N; try (exfalso; now apply C); try (exfalso; now apply C').
Qed.
Lemma resolve_fields_erase sc e e' : resolve_fields sc e = Ok e' -> erase e' = erase e.
Proof. intro H. eapply resolves_erase, C28_resolved, H. Qed.
Lemma each_fields_erase sc l : forall l', each (resolve_fields sc) l = Ok l' -> map erase l' = map erase l.
Proof.
  induction l as [|a l IH]; cbn [each]; intros l' H; unbind; [reflexivity|]. cbn [map]. f_equal.
  - eapply resolve_fields_erase; eassumption.
  - now apply IH.
Qed.
Lemma each_fields_again sc l : forall l', each (resolve_fields sc) l = Ok l' -> each (resolve_fields sc) l' = Ok l'.
Proof.
  induction l as [|a l IH]; cbn [each]; intros l' H; unbind; [reflexivity|]. cbn [each].
  erewrite C28_idempotent by eassumption. cbn [bind]. now rewrite IH.
Qed.
(** The class, the text and the result of a second call. *)
Definition stable (e : node) : Prop := forall sc out e', resolve sc e = Ok (out, e') ->
  is_query e' = is_query e /\ erase e' = erase e /\ resolve sc e' = Ok (out, e').
Lemma with_step f sc w r : resolve_with f sc (w :: r) =
  let* (s1, w') := f sc w in
  let* acc := merge sc s1 in
  let* (res, r') := resolve_with f acc r in
  Ok (res, w' :: r').
Proof. reflexivity. Qed.
Lemma with_stable wi : (forall w, In w wi -> stable w) -> forall sc out wi',
  resolve_with resolve sc wi = Ok (out, wi') ->
  map erase wi' = map erase wi /\ resolve_with resolve sc wi' = Ok (out, wi').
Proof.
  induction wi as [|w wi IH]; intros H sc out wi' E.
  { injection E as <- <-. split; reflexivity. }
  rewrite with_step in E. destruct (resolve sc w) as [[s1 w']|] eqn:E1; [|discriminate E]. cbn [bind] in E.
  destruct (merge sc s1) as [acc|] eqn:E2; [|discriminate E]. cbn [bind] in E.
  destruct (resolve_with resolve acc wi) as [[s2 r']|] eqn:E3; [|discriminate E]. injection E as <- <-.
  destruct (H w (or_introl eq_refl) _ _ _ E1) as (_ & A & B).
  destruct (IH (fun x Hx => H x (or_intror Hx)) _ _ _ E3) as [C D].
  split; [cbn [map]; congruence|].
  rewrite with_step, B. cbn [bind]. rewrite E2. cbn [bind].
  now rewrite D.
Qed.

Lemma resolve_stable e : stable e.
Proof.
  induction e as [e IH] using kids_ind. intros sc out e' H.
  destruct e; cbn [resolve] in H; try discriminate H; cbn [kids] in IH.
  - (* SELECT *)
    destruct qa as [wi ob off lim]. destruct from_ as [f|].
    + destruct (resolve_with resolve empty_schema wi) as [[wsc wi']|] eqn:E1; [|discriminate H]. cbn [bind] in H.
      destruct (merge sc wsc) as [ex|] eqn:E2; [|discriminate H]. cbn [bind] in H.
      destruct (resolve (maybe_prune f ex) f) as [[fs f']|] eqn:E3; [|discriminate H]. cbn [bind] in H.
      destruct (each (resolve_fields fs) select) as [sel'|] eqn:E4; [|discriminate H]. cbn [bind] in H.
      destruct (each (output _) sel') as [os|] eqn:E5; [|discriminate H]. cbn [bind] in H. injection H as <- <-.
      destruct (with_stable wi) with (2 := E1) as [A1 A2].
      { intros w Hw. apply IH. cbn [qattrs_kids]. repeat rewrite in_app_iff. tauto. }
      destruct (IH f) with (2 := E3) as (B1 & B2 & B3).
      { repeat rewrite in_app_iff. cbn; auto. }
      split; [reflexivity|]. split.
      * cbn [erase node_fmap option_map qattrs_fmap]. rewrite (each_fields_erase _ _ _ E4), A1, B2. reflexivity.
      * cbn [resolve]. rewrite A2. cbn [bind]. rewrite E2. cbn [bind].
        assert (maybe_prune f' ex = maybe_prune f ex) as -> by (unfold maybe_prune; now rewrite B1).
        rewrite B3. cbn [bind]. rewrite (each_fields_again _ _ _ E4). cbn [bind]. rewrite E5. reflexivity.
    + cbn [bind] in H. destruct (each (output _) select) as [os|] eqn:E5; [|discriminate H]. cbn [bind] in H. injection H as <- <-.
      split; [reflexivity|]. split; [reflexivity|]. cbn [resolve bind]. rewrite E5. reflexivity.
  - (* set operations *)
    destruct (resolve (maybe_prune e1 sc) e1) as [[ls l']|] eqn:E1; [|discriminate H]. cbn [bind] in H.
    destruct (resolve (maybe_prune e2 sc) e2) as [[rs r']|] eqn:E2; [|discriminate H]. cbn [bind] in H. injection H as <- <-.
    destruct (IH e1) with (2 := E1) as (A1 & A2 & A3); [now left|].
    destruct (IH e2) with (2 := E2) as (B1 & B2 & B3); [right; now left|].
    split; [reflexivity|]. split; [cbn [erase node_fmap]; now rewrite A2, B2|].
    cbn [resolve].
    assert (maybe_prune l' sc = maybe_prune e1 sc) as -> by (unfold maybe_prune; now rewrite A1). rewrite A3. cbn [bind].
    assert (maybe_prune r' sc = maybe_prune e2 sc) as -> by (unfold maybe_prune; now rewrite B1). now rewrite B3.
  - (* TABLE *)
    destruct qa as [wi ob off lim].
    destruct (resolve_with resolve empty_schema wi) as [[wsc wi']|] eqn:E1; [|discriminate H]. cbn [bind] in H.
    destruct (resolve wsc e) as [[ts t']|] eqn:E2; [|discriminate H]. cbn [bind] in H. injection H as <- <-.
    destruct (with_stable wi) with (2 := E1) as [A1 A2].
    { intros w Hw. apply IH. cbn [qattrs_kids]. right. apply in_app_iff. now left. }
    destruct (IH e) with (2 := E2) as (B1 & B2 & B3); [now left|].
    split; [reflexivity|]. split; [cbn [erase node_fmap qattrs_fmap]; now rewrite A1, B2|].
    cbn [resolve]. rewrite A2. cbn [bind]. now rewrite B3.
  - (* a table *)
    assert (e' = NTable name schema catalog) as -> by (destruct (mem name (s_ids sc)); injection H as _ <-; reflexivity).
    split; [reflexivity|]. split; [reflexivity|]. exact H.
  - (* an alias *)
    destruct (resolve (maybe_prune e sc) e) as [[rs r']|] eqn:E1; [|discriminate H]. cbn [bind] in H.
    destruct (IH e) with (2 := E1) as (A1 & A2 & A3); [now left|].
    match type of H with bind ?m _ = _ => destruct m as [fs|] eqn:E2; [|discriminate H] end.
    cbn [bind] in H. injection H as <- <-.
    split; [reflexivity|]. split; [cbn [erase node_fmap]; now rewrite A2|].
    cbn [resolve]. assert (maybe_prune r' sc = maybe_prune e sc) as -> by (unfold maybe_prune; now rewrite A1).
    rewrite A3. cbn [bind]. rewrite E2. reflexivity.
  - (* a join *)
    destruct (resolve (maybe_prune e1 sc) e1) as [[ls l']|] eqn:E1; [|discriminate H]. cbn [bind] in H.
    destruct (merge sc ls) as [sc'|] eqn:E2; [|discriminate H]. cbn [bind] in H.
    destruct (resolve (maybe_prune e2 sc') e2) as [[rs r']|] eqn:E3; [|discriminate H]. cbn [bind] in H.
    destruct (merge ls rs) as [res|] eqn:E4; [|discriminate H]. cbn [bind] in H. injection H as <- <-.
    destruct (IH e1) with (2 := E1) as (A1 & A2 & A3); [now left|].
    destruct (IH e2) with (2 := E3) as (B1 & B2 & B3); [right; now left|].
    split; [reflexivity|]. split; [cbn [erase node_fmap]; now rewrite A2, B2|].
    cbn [resolve].
    assert (maybe_prune l' sc = maybe_prune e1 sc) as -> by (unfold maybe_prune; now rewrite A1). rewrite A3. cbn [bind].
    rewrite E2. cbn [bind].
    assert (maybe_prune r' sc' = maybe_prune e2 sc') as -> by (unfold maybe_prune; now rewrite B1). rewrite B3. cbn [bind].
    now rewrite E4.
  - (* UNNEST *)
    destruct (each (resolve_fields sc) arrays) as [vs'|] eqn:E1; [|discriminate H]. cbn [bind] in H.
    destruct (data_type (NUnnest vs' ordinality)) as [t|] eqn:E2; [|discriminate H]. cbn [bind] in H. injection H as <- <-.
    split; [reflexivity|]. split; [cbn [erase node_fmap]; now rewrite (each_fields_erase _ _ _ E1)|].
    cbn [resolve]. rewrite (each_fields_again _ _ _ E1). cbn [bind]. now rewrite E2.
  - (* LATERAL *)
    destruct (resolve sc e) as [[rs r']|] eqn:E1; [|discriminate H]. cbn [bind] in H. injection H as <- <-.
    destruct (IH e) with (2 := E1) as (A1 & A2 & A3); [now left|].
    split; [reflexivity|]. split; [cbn [erase node_fmap]; now rewrite A2|]. cbn [resolve]. now rewrite A3.
  - (* TABLESAMPLE *)
    destruct (resolve sc e1) as [[rs r']|] eqn:E1; [|discriminate H]. cbn [bind] in H. injection H as <- <-.
    destruct (IH e1) with (2 := E1) as (A1 & A2 & A3); [now left|].
    split; [reflexivity|]. split; [cbn [erase node_fmap]; now rewrite A2|]. cbn [resolve]. now rewrite A3.
Qed.

(** * C53: resolving is done once and for all *)
Theorem C53_twice : forall sc q out q', resolve sc q = Ok (out, q') -> resolve sc q' = Ok (out, q').
Proof. intros sc q out q' H. now apply resolve_stable in H. Qed.
Print Assumptions C53_twice.
(** The text in every layout is that of the unresolved query. *)
Theorem C53_text : forall sc q out q' o, resolve sc q = Ok (out, q') -> to_sql o q' = to_sql o q.
Proof.
  intros sc q out q' o H. destruct (resolve_stable _ _ _ _ H) as (_ & E & _).
  now rewrite <- (to_sql_erase o q'), <- (to_sql_erase o q), E.
Qed.
Print Assumptions C53_text.
Local Definition col n := NField n TRNone unknown.
Local Definition tbl n := NTable n None None.
Local Definition nested : node :=
  NSelect [NAliased (col "x") "y"; NStar TRNone unknown]
          (Some (NAliasedRel (NSelect [NAliased (NLit (LInt 1) integer) "x"] None None None None false [] no_qattrs) "s" []))
          (Some (NBin BGt (col "x") (NLit (LInt 0) integer))) None None false [] no_qattrs.
(** A query that is changed by resolving it. *)
Example C53_case :
  match resolve empty_schema nested with
  | Ok (out, q') => map f_type (s_fields out) = [integer; TRow [integer]]
                    /\ resolve empty_schema q' = Ok (out, q') /\ to_sql default_opts q' = to_sql default_opts nested
                    /\ hd NNone (match q' with NSelect l _ _ _ _ _ _ _ => l | _ => [] end) = NAliased (NField "x" TRNone integer) "y"
  | Err _ => False
  end.
Proof. vm_compute. split; [|split; [|split]]; reflexivity. Qed.

(** * C52: the format command *)
(** [t]: any text that is read as [q], whatever its layout. *)
Theorem C52_format_query : forall en t q,
  query_from_sql en t = Ok q -> lexable q -> good en [] q -> is_q q = true ->
  match resolve empty_schema q with
  | Err x => format en CQuery t = Err x
  | Ok _ => exists t', format en CQuery t = Ok t' /\ to_sql pretty q = Ok t'
                       /\ query_from_sql en t' = Ok q /\ format en CQuery t' = Ok t'
  end.
Proof.
  intros en t q H L G Q.
  assert (F : forall s, query_from_sql en s = Ok q -> format en CQuery s =
    match resolve empty_schema q with Err x => Err x | Ok _ => to_sql pretty q end).
  { intros s E. unfold format, get_sql_object, get_query. rewrite E. cbn [bind].
    destruct (resolve empty_schema q) as [[out q']|x] eqn:R; [|reflexivity]. cbn [bind object_text].
    exact (C53_text _ _ _ _ pretty R). }
  destruct (C20_query_round_trip en q pretty L G Q ltac:(cbn; lia)) as (s & S1 & S2).
  pose proof (F _ H) as F1. pose proof (F _ S2) as F2.
  destruct (resolve empty_schema q) as [r|x]; [|exact F1].
  exists s. rewrite F1, F2. split; [exact S1|]. split; [exact S1|]. split; [exact S2|exact S1].
Qed.
Print Assumptions C52_format_query.
Theorem C52_format_expression : forall en t e,
  expression_from_sql en t = Ok e -> lexable e -> good en [] e -> is_expr e = true ->
  exists t', format en CExpression t = Ok t' /\ to_sql pretty e = Ok t'
             /\ expression_from_sql en t' = Ok e /\ format en CExpression t' = Ok t'.
Proof.
  intros en t e H L G X.
  destruct (C17_expression_round_trip en e pretty L G X ltac:(cbn; lia)) as (s & S1 & S2).
  exists s. unfold format, get_sql_object. rewrite H, S2. cbn [bind object_text].
  split; [exact S1|]. split; [exact S1|]. split; [reflexivity|exact S1].
Qed.
Print Assumptions C52_format_expression.
Theorem C52_format_type : forall en s r,
  type_from_sql s = Ok r -> TypeObjects.built r ->
  exists s' r', format en CType s = Ok s' /\ raw_sql r = Ok s' /\ type_from_sql s' = Ok r' /\ same r' r
                /\ format en CType s' = Ok s'.
Proof.
  intros en s r H B. destruct (built_reps r B) as (t & W & R).
  pose proof (raw_sql_reps t r R) as E. pose proof (C02_canonical_round_trip t W) as T.
  pose proof (raw_sql_reps t _ (reps_raw_of t)) as E'.
  exists (type_sql t), (raw_of t). unfold format, get_sql_object. rewrite H, T. cbn [bind object_text].
  split; [exact E|]. split; [exact E|]. split; [reflexivity|]. split; [|exact E'].
  exact (reps_same t _ _ (reps_raw_of t) R).
Qed.
Print Assumptions C52_format_type.

(** Queries over tables, aliased tables and joins of these are always formatted: nothing is known of
    a table, and nothing is looked for.  Stars are allowed in the SELECT list itself. *)
Inductive tables : node -> Prop :=
| tb_table n s c : tables (NTable n s c)
| tb_alias n s c a : tables (NAliasedRel (NTable n s c) a [])
| tb_join l r jt nat c : tables l -> tables r -> tables (NJoin l r jt nat c).
Definition by_name (tr : tref node) : Prop := match tr with TRVal _ => False | _ => True end.
Inductive ordinary : node -> Prop :=
| ord_column n tr t : by_name tr -> ordinary (NField n tr t)
| ord_node e : ~ is_column e -> ~ is_table e -> (forall k, In k (kids e) -> ordinary k) -> ordinary e.
Definition item (e : node) : Prop := ordinary e \/ exists tr t, e = NStar tr t /\ by_name tr.

Lemma ordinary_same ids e : ordinary e -> forall t, check e = Ok t -> resolve_fields (mkS [] ids) e = Ok e.
Proof.
  induction 1 as [n tr t B|e C T K IH]; intros u U.
  { cbn [resolve_fields]. unfold make_field. cbn [s_fields filter]. destruct tr as [|s|v]; [reflexivity| |destruct B].
    cbn [s_ids]. now destruct (mem s ids). }
  destruct (none_dec e) as [->|N]; [reflexivity|].
  rewrite resolve_step by assumption.
  assert (E : node_each (resolve_fields (mkS [] ids)) e = Ok e).
  { assert (P : forall k, In k (kids e) -> resolve_fields (mkS [] ids) k = Ok k).
    { intros k Hk. destruct (check_parts _ _ U k Hk) as [w W]. eapply IH; eassumption. }
    destruct (t_total trav_node (resolve_fields (mkS [] ids)) e) as [e' E']; [intros a Ha; rewrite (P a Ha); eauto|].
    rewrite E'. f_equal. pose proof (t_parts trav_node _ _ _ E') as F.
    destruct (shell_ok e) as [s Es]. unfold shell in Es.
    apply (t_same trav_node) with (s := s); [exact (t_shell trav_node _ _ _ _ E' Es)|exact Es|].
    clear -F P. revert F. generalize (kids e'). induction (kids e) as [|a l IHl]; intros m F; inversion F; subst; [reflexivity|].
    f_equal.
    - rewrite P in H1 by (now left). congruence.
    - apply IHl; [|assumption]. intros. apply P. now right. }
  rewrite E. cbn [bind]. unfold mk. now rewrite U.
Qed.
Lemma tables_query e : tables e -> is_query e = false.
Proof. now destruct 1. Qed.
Lemma tables_resolve e : tables e -> forall ids, exists ids', resolve (mkS [] ids) e = Ok (mkS [] ids', e).
Proof.
  induction 1 as [n s c|n s c a|l r jt nat c Hl IHl Hr IHr]; intro ids.
  - cbn [resolve s_ids s_fields filter]. destruct (mem n ids); eauto.
  - cbn [resolve maybe_prune is_query s_ids s_fields filter].
    destruct (mem n ids); cbn [bind map s_fields]; eauto.
  - cbn [resolve]. unfold maybe_prune. rewrite (tables_query l Hl), (tables_query r Hr).
    destruct (IHl ids) as [i1 ->]. cbn [bind]. unfold merge. cbn [s_fields s_ids merge_fields bind].
    destruct (IHr (ids ++ i1)) as [i2 ->]. cbn [bind s_fields s_ids merge_fields]. eauto.
Qed.
Theorem C52_tables_resolve : forall sel f wh gb hv d ws ob off lim t,
  check (NSelect sel (Some f) wh gb hv d ws (mkQ [] ob off lim)) = Ok t ->
  tables f -> Forall item sel ->
  exists out q', resolve empty_schema (NSelect sel (Some f) wh gb hv d ws (mkQ [] ob off lim)) = Ok (out, q').
Proof.
  intros sel f wh gb hv d ws ob off lim t C T I.
  cbn [resolve resolve_with bind]. unfold empty_schema at 1 2, merge. cbn [s_fields s_ids merge_fields bind app].
  unfold maybe_prune. rewrite (tables_query f T). destruct (tables_resolve f T []) as [ids ->]. cbn [bind].
  assert (Ts : exists ts, each (fun x => tyof (check x)) sel = Ok ts).
  { cbn [check] in C. destruct (each (fun x => tyof (check x)) sel) as [ts|]; [eauto|discriminate C]. }
  destruct Ts as [ts Ts]. apply each_forall in Ts.
  assert (S : exists sel', each (resolve_fields (mkS [] ids)) sel = Ok sel' /\ Forall (fun v => exists u, data_type v = Ok u) sel').
  { clear -Ts I. induction Ts as [|x u l us Hx F IH]; [now exists []|]. inversion I as [|? ? Ix Il]; subst.
    destruct (IH Il) as (l' & E & D). cbn [each].
    destruct Ix as [O|(tr & w & -> & B)].
    - assert (check x = Ok (Some u)) as U by (destruct (check x) as [[]|]; try discriminate Hx; now injection Hx as ->).
      rewrite (ordinary_same ids x O _ U). cbn [bind]. rewrite E. exists (x :: l'). split; [reflexivity|].
      constructor; [|exact D]. exists u. unfold data_type. now rewrite U.
    - exists (NStar tr (TRow []) :: l').
      assert (resolve_fields (mkS [] ids) (NStar tr w) = Ok (NStar tr (TRow []))) as ->
        by (destruct tr; [reflexivity..|destruct B]).
      cbn [bind]. rewrite E. split; [reflexivity|]. constructor; [|exact D].
      exists (TRow []). destruct tr; [reflexivity..|destruct B]. }
  destruct S as (sel' & -> & D). cbn [bind].
  assert (O : forall src, exists os, each (output src) sel' = Ok os).
  { clear -D. intro src. induction D as [|v l [u U] D [os IH]]; [now exists []|]. cbn [each]. unfold output at 1. rewrite U.
    cbn [bind]. rewrite IH. cbn [bind]. eauto. }
  match goal with |- context [each (output ?src) sel'] => destruct (O src) as [os ->] end. cbn [bind]. eauto.
Qed.
Print Assumptions C52_tables_resolve.

(** Both together, on a text in another layout and with other words than the printed one. *)
Local Definition sample_text : string := "select a , t.* from s.t cross join (u) where not a in (1,2) order by a asc limit 3".
Local Definition sample : node :=
  NSelect [col "a"; NStar (TRStr "t") unknown] (Some (NJoin (NTable "t" (Some "s") None) (tbl "u") JCross false None))
          (Some (NUn UNot (NInList (col "a") [NLit (LInt 1) integer; NLit (LInt 2) integer]))) None None false []
          (mkQ [] [mkOrder (col "a") false false] None (Some 3%Z)).
Local Lemma sample_lexable : lexable sample.
Proof. now apply (lexable_dec 5). Qed.
Local Lemma sample_good : good bare_env [] sample.
Proof. now apply (good_dec _ 5). Qed.
Example C52_case :
  query_from_sql bare_env sample_text = Ok sample /\ lexable sample /\ good bare_env [] sample
  /\ tables (NJoin (NTable "t" (Some "s") None) (tbl "u") JCross false None)
  /\ Forall item [col "a"; NStar (TRStr "t") unknown]
  /\ format bare_env CQuery sample_text
     = Ok ("SELECT ""a"",t.*" ++ nls ++ "  FROM ""s"".""t""" ++ nls ++ "       CROSS JOIN ""u""" ++ nls
           ++ " WHERE ""a"" NOT IN (1,2)" ++ nls ++ " ORDER BY ""a""" ++ nls ++ " LIMIT 3")%string.
Proof.
  split; [vm_compute; reflexivity|]. split; [apply sample_lexable|]. split; [apply sample_good|].
  split; [repeat constructor|].
  split; [constructor; [left; now constructor|constructor; [right; now eexists _, _|constructor]]|].
  vm_compute. reflexivity.
Qed.
Example C52_type_case :
  exists r, type_from_sql "map(varchar , array(decimal(9)))" = Ok r
  /\ format bare_env CType "map(varchar , array(decimal(9)))" = Ok "MAP(VARCHAR,ARRAY(DECIMAL(9,0)))".
Proof. eexists. vm_compute. split; reflexivity. Qed.
(** Outside the fragment the command loses conditions or raises. *)
Theorem C52_condition_lost_refuted :
  format bare_env CQuery "SELECT 1 FROM t WHERE EXISTS (SELECT 2)" = format bare_env CQuery "SELECT 1 FROM t".
Proof. vm_compute. reflexivity. Qed.
Print Assumptions C52_condition_lost_refuted.
Theorem C52_values_raises_refuted :
  query_from_sql bare_env "VALUES 1, 2" <> Err SyntaxErr /\ format bare_env CQuery "VALUES 1, 2" = Err TypeError.
Proof. vm_compute. split; [discriminate|reflexivity]. Qed.
Print Assumptions C52_values_raises_refuted.

(** * The schema command *)
(** It shows the columns of the query, resolved once, one line each. *)
Theorem C53_schema_command : forall en t sel fr wh gb hv d ws qa out q',
  query_from_sql en t = Ok (NSelect sel fr wh gb hv d ws qa) -> sel <> [] ->
  resolve empty_schema (NSelect sel fr wh gb hv d ws qa) = Ok (out, q') ->
  schema_lines en t = Ok (map schema_line (s_fields out))
  /\ map f_name (s_fields out) = map value_id sel.
Proof.
  intros en t sel fr wh gb hv d ws [wi ob off lim] out q' Q S R.
  destruct (C44_output_columns _ _ _ _ _ _ _ _ _ _ _ _ _ _ R) as (sel' & fr' & wi' & _ & _ & N & _).
  split; [|exact N].
  unfold schema_lines, get_query. rewrite Q. cbn [bind]. rewrite R. cbn [bind]. rewrite (C53_twice _ _ _ _ R). cbn [bind].
  destruct (s_fields out); [|reflexivity]. destruct sel; [now exfalso|discriminate N].
Qed.
Print Assumptions C53_schema_command.
Example C53_schema_case :
  schema_lines bare_env "SELECT x AS y, 'a', x = 1, z FROM (SELECT 1 AS x, 2 AS w) AS s"
  = Ok ["y - INTEGER"; "None - VARCHAR(1)"; "None - BOOLEAN"; "z - <unknown>"].
Proof. vm_compute. reflexivity. Qed.
(** A column without a name cannot be told from one named None. *)
Theorem C53_no_name_refuted :
  schema_lines bare_env "SELECT 1" = schema_lines bare_env "SELECT 1 AS ""None""".
Proof. vm_compute. reflexivity. Qed.
Print Assumptions C53_no_name_refuted.
