(** Properties C44 - C50: the scopes of [resolve] on queries and relations. *)
From Coq Require Import String List ZArith Bool Lia.
From Verif Require Import PyStr Types Inference TypeFacts Conversions Functions Ast Walk Sql Tokens NodeFacts Schema ConversionFacts PropertiesLiterals
  PropertiesLambda PropertiesResolve PropertiesMerge.
Import ListNotations.
Open Scope nat_scope.
Open Scope string_scope.
Open Scope list_scope.

Lemma each_forall {A B} (f : A -> result B) l bs : each f l = Ok bs -> Forall2 (fun a b => f a = Ok b) l bs.
Proof.
  revert bs. induction l as [|a l IH]; intros bs E.
  - injection E as <-. constructor.
  - change (each f (a :: l)) with (let* b := f a in let* bs := each f l in Ok (b :: bs)) in E.
    destruct (f a) as [b|] eqn:F; [|discriminate E]. cbn [bind] in E.
    destruct (each f l) as [r|] eqn:G; [|discriminate E]. injection E as <-. constructor; [exact F|]. now apply IH.
Qed.
Lemma forall_each {A B} (f : A -> result B) l bs : Forall2 (fun a b => f a = Ok b) l bs -> each f l = Ok bs.
Proof.
  induction 1 as [|a b l bs E F IH]; [reflexivity|].
  change (each f (a :: l)) with (let* b := f a in let* bs := each f l in Ok (b :: bs)).
  rewrite E. cbn [bind]. rewrite IH. reflexivity.
Qed.
Lemma forall2_imp {A B} (P Q : A -> B -> Prop) l m : (forall a b, P a b -> Q a b) -> Forall2 P l m -> Forall2 Q l m.
Proof. intros H F. induction F; constructor; auto. Qed.

Lemma forall2_len {A B} (P : A -> B -> Prop) l m : Forall2 P l m -> length l = length m.
Proof. induction 1; cbn [length]; congruence. Qed.
Lemma nodup_app_r {A} (l m : list A) : NoDup (l ++ m) -> NoDup m.
Proof. induction l as [|a l IH]; cbn [app]; intro H; [exact H|]. inversion H; subst. now apply IH. Qed.

(** The columns a relation offers: names and types. *)
Definition columns (sc : schema) : list (option string * dtype) :=
  map (fun f => (f_name f, f_type f)) (s_fields sc).

(** * C44: the output of SELECT *)

(** Resolving keeps the name of a value. *)
Lemma resolve_keeps_name sc v v' : resolve_fields sc v = Ok v' -> value_id v' = value_id v.
Proof.
  intro H. destruct (column_dec v) as [C|C].
  { apply C28_resolved in H. destruct H as [| | | | | | | |e e' C' _ _ _]; try reflexivity. contradiction. }
  destruct (none_dec v) as [->|N]; [injection H as <-; reflexivity|].
  destruct (resolve_node _ _ _ C N H) as (_ & E & _).
  destruct v; cbn [node_each] in E; unbind; reflexivity.
Qed.
(** One column per item of the SELECT list, in order, under the name of the item and with
    its type; with a FROM clause the items are resolved against one and the same schema.  All other clauses
    stay as they were. *)
Theorem C44_output_columns : forall sc sel fr wh gb hv d ws wi ob off lim out e',
  resolve sc (NSelect sel fr wh gb hv d ws (mkQ wi ob off lim)) = Ok (out, e') ->
  exists sel' fr' wi',
    e' = NSelect sel' fr' wh gb hv d ws (mkQ wi' ob off lim)
    /\ s_ids out = []
    /\ map f_name (s_fields out) = map value_id sel
    /\ Forall2 (fun v f => data_type v = Ok (f_type f) /\ f_source f = e') sel' (s_fields out)
    /\ (fr = None /\ sel' = sel \/ exists inner, Forall2 (resolves inner) sel sel').
Proof.
  intros sc sel fr wh gb hv d ws wi ob off lim out e' H. cbn [resolve] in H.
  assert (O : forall src l fs, each (output src) l = Ok fs ->
    map f_name fs = map value_id l /\ Forall2 (fun v f => data_type v = Ok (f_type f) /\ f_source f = src) l fs).
  { intros src l fs E. apply each_forall in E. induction E as [|v f l fs E F [IH1 IH2]]; [split; constructor|].
    unfold output in E. destruct (data_type v) as [t|] eqn:T; [|discriminate E]. injection E as <-. cbn [map f_name f_type f_source].
    split; [now f_equal|]. constructor; [|exact IH2]. split; reflexivity || exact T. }
  destruct fr as [f|].
  - destruct (resolve_with resolve empty_schema wi) as [[wsc wi']|]; [|discriminate H]. cbn [bind] in H.
    destruct (merge sc wsc) as [ex|]; [|discriminate H]. cbn [bind] in H.
    destruct (resolve (maybe_prune f ex) f) as [[inner f']|]; [|discriminate H]. cbn [bind] in H.
    destruct (each (resolve_fields inner) sel) as [sel'|] eqn:S; [|discriminate H]. cbn [bind] in H.
    destruct (each (output _) sel') as [fs|] eqn:E; [|discriminate H]. cbn [bind] in H. injection H as <- <-.
    destruct (O _ _ _ E) as [O1 O2]. apply each_forall in S.
    exists sel', (Some f'), wi'. cbn [s_ids s_fields]. split; [reflexivity|]. split; [reflexivity|]. split; [|split].
    + rewrite O1. clear - S. induction S as [|v v' l l' E F IH]; [reflexivity|]. cbn [map].
      rewrite (resolve_keeps_name _ _ _ E). now f_equal.
    + exact O2.
    + right. exists inner. eapply forall2_imp; [|exact S]. intros a b. apply C28_resolved.
  - cbn [bind] in H. destruct (each (output _) sel) as [fs|] eqn:E; [|discriminate H]. cbn [bind] in H. injection H as <- <-.
    destruct (O _ _ _ E) as [O1 O2]. exists sel, None, wi. cbn [s_ids s_fields].
    split; [reflexivity|]. split; [reflexivity|]. split; [exact O1|]. split; [exact O2|]. left. split; reflexivity.
Qed.
Print Assumptions C44_output_columns.
(** Consequently a column in WHERE keeps its unknown type, although the schema has it. *)
Local Definition tbl (n : string) : node := NTable n None None.
Local Definition col (n : string) : node := NField n TRNone unknown.
Theorem C44_where_refuted :
  exists out e', resolve (mkS [mkF (Some "x") (tbl "t") integer] ["t"])
      (NSelect [col "x"] (Some (tbl "t")) (Some (NBin BEq (col "x") (col "x"))) None None false [] no_qattrs) = Ok (out, e')
  /\ e' = NSelect [NField "x" TRNone integer] (Some (tbl "t")) (Some (NBin BEq (col "x") (col "x"))) None None false [] no_qattrs.
Proof. eexists _, _. split; [vm_compute; reflexivity|reflexivity]. Qed.
Print Assumptions C44_where_refuted.
Example C44_case :
  exists e', resolve (mkS [mkF (Some "x") (tbl "t") integer; mkF (Some "y") (tbl "t") bigint] ["t"])
      (NSelect [NAliased (NBin BAdd (col "x") (col "y")) "s"; col "y"; NBin BEq (col "x") (col "y")] (Some (tbl "t"))
         None None None false [] no_qattrs)
    = Ok (mkS [mkF (Some "s") e' bigint; mkF (Some "y") e' bigint; mkF None e' boolean] [], e').
Proof. eexists. vm_compute. reflexivity. Qed.

(** * C45: sub-queries see nothing of the outside *)
Theorem C45_closed : forall q a cols op l r d qa t sc sc',
  is_query q = true -> is_query l = true -> is_query r = true ->
  resolve sc (NAliasedRel q a cols) = resolve sc' (NAliasedRel q a cols)
  /\ resolve sc (NSetQuery op l r d qa) = resolve sc' (NSetQuery op l r d qa)
  /\ resolve sc (NTableQuery t qa) = resolve sc' (NTableQuery t qa).
Proof.
  intros q a cols op l r d qa t sc sc' Q L R. cbn [resolve]. unfold maybe_prune. rewrite Q, L, R. split; [|split]; reflexivity.
Qed.
Print Assumptions C45_closed.
(** The WITH names of a query are not visible in a sub-query in its FROM clause: the
    columns are those without the WITH clause. *)
Theorem C45_with_invisible : forall sc sel f wh gb hv d ws wi ob off lim out e',
  is_query f = true \/ (exists q a cols, f = NAliasedRel q a cols /\ is_query q = true) ->
  resolve sc (NSelect sel (Some f) wh gb hv d ws (mkQ wi ob off lim)) = Ok (out, e') ->
  exists out2 e2, resolve sc (NSelect sel (Some f) wh gb hv d ws (mkQ [] ob off lim)) = Ok (out2, e2)
  /\ columns out2 = columns out.
Proof.
  intros sc sel f wh gb hv d ws wi ob off lim out e' Q H.
  assert (P : forall x y, resolve (maybe_prune f x) f = resolve (maybe_prune f y) f).
  { intros x y. destruct Q as [Q|(q & a & cols & -> & Q)].
    - unfold maybe_prune. now rewrite Q.
    - unfold maybe_prune at 1 2. cbn [is_query]. now apply (C45_closed q a cols OpUnion q q false no_qattrs NNone x y). }
  cbn [resolve] in *. destruct (resolve_with resolve empty_schema wi) as [[wsc wi']|]; [|discriminate H]. cbn [bind] in H.
  destruct (merge sc wsc) as [ex|]; [|discriminate H]. cbn [bind] in H.
  cbn [resolve_with bind]. unfold merge at 1. cbn [s_fields s_ids empty_schema merge_fields bind].
  rewrite (P _ ex). destruct (resolve (maybe_prune f ex) f) as [[inner f']|]; [|discriminate H]. cbn [bind] in *.
  destruct (each (resolve_fields inner) sel) as [sel'|]; [|discriminate H]. cbn [bind] in *.
  destruct (each (output _) sel') as [fs|] eqn:E in H; [|discriminate H]. cbn [bind] in H. injection H as <- <-.
  apply each_forall in E.
  match goal with |- context [each (output ?s) sel'] => set (src := s) end.
  exists (mkS (map (fun f => mkF (f_name f) src (f_type f)) fs) []), src.
  assert (E2 : each (output src) sel' = Ok (map (fun f => mkF (f_name f) src (f_type f)) fs)).
  { apply forall_each. clear - E. induction E as [|v f l fs E F IH]; [constructor|]. cbn [map]. constructor; [|exact IH].
    unfold output in *. destruct (data_type v); [|discriminate E]. injection E as <-. reflexivity. }
  rewrite E2. split; [reflexivity|]. unfold columns. cbn [s_fields]. now rewrite map_map.
Qed.
Print Assumptions C45_with_invisible.
(** As one can see in WITH c AS (SELECT 1 x) SELECT x FROM (SELECT x FROM c) q, where x
    gets no type.  In a sampled sub-query the names are visible after all, and there x gets its type. *)
Local Definition sel (items : list node) (f : node) (wi : list node) : node :=
  NSelect items (Some f) None None None false [] (mkQ wi [] None None).
Local Definition one (x : string) : node := NSelect [NAliased (NLit (LInt 1%Z) integer) x] None None None None false [] no_qattrs.
Local Definition cte : node := NAliasedRel (one "x") "c" [].
Theorem C45_scope_refuted :
  (exists out e', resolve empty_schema (sel [col "x"] (NAliasedRel (sel [col "x"] (tbl "c") []) "q" []) [cte]) = Ok (out, e')
    /\ columns out = [(Some "x", unknown)])
  /\ exists out e',
    resolve empty_schema (sel [col "x"] (NSample (sel [col "x"] (tbl "c") []) Bernoulli (NLit (LInt 9%Z) integer)) [cte]) = Ok (out, e')
    /\ columns out = [(Some "x", integer)].
Proof. split; eexists _, _; (split; [vm_compute; reflexivity|reflexivity]). Qed.
Print Assumptions C45_scope_refuted.
(** LATERAL does pass the schema on. *)
Example C45_case :
  is_query (one "x") = true
  /\ exists out e', resolve empty_schema
       (sel [col "y"] (NJoin (NAliasedRel (one "x") "a" [])
          (NAliasedRel (NLateral (NSelect [NAliased (NField "x" (TRStr "a") unknown) "y"] (Some (tbl "a")) None None None false [] no_qattrs)) "b" [])
          JCross false None) []) = Ok (out, e')
  /\ columns out = [(Some "y", integer)].
Proof. split; [reflexivity|]. eexists _, _. split; [vm_compute; reflexivity|reflexivity]. Qed.

(** * C46: WITH names *)
Lemma merge_fields_distinct acc l : NoDup (map f_name (acc ++ l)) -> merge_fields acc l = Ok (acc ++ l).
Proof.
  revert acc. induction l as [|f l IH]; intros acc D; cbn [merge_fields]; [now rewrite app_nil_r|].
  assert (S : sfield_in f acc = Ok false).
  { rewrite map_app in D. cbn [map] in D. apply NoDup_remove_2 in D.
    assert (N : ~ In (f_name f) (map f_name acc)) by (intro X; apply D; apply in_or_app; now left).
    clear - N. induction acc as [|g acc IH]; [reflexivity|]. cbn [sfield_in map In] in *.
    unfold sfield_eq. destruct (name_eqb (f_name g) (f_name f)) eqn:E; [apply name_eqb_eq in E; tauto|].
    cbn [bind]. apply IH. tauto. }
  rewrite S. cbn [bind]. rewrite IH; rewrite <- app_assoc; [reflexivity|exact D].
Qed.
(** Schemas with distinct column names merge without loss, whatever the columns come from. *)
Theorem C30_distinct_names : forall a b,
  NoDup (map f_name (s_fields a ++ s_fields b)) ->
  merge a b = Ok (mkS (s_fields a ++ s_fields b) (s_ids a ++ s_ids b)).
Proof. intros a b D. unfold merge. now rewrite merge_fields_distinct. Qed.
Print Assumptions C30_distinct_names.

(** [named_as cols l m]: [m] are the columns [l] under the names [cols]; without names
    they keep their own. *)
Inductive renames : list string -> list (option string * dtype) -> list (option string * dtype) -> Prop :=
| renames_nil cs : renames cs [] []
| renames_cons c cs n t l m : renames cs l m -> renames (c :: cs) ((n, t) :: l) ((Some c, t) :: m).
Definition named_as (cols : list string) (l m : list (option string * dtype)) : Prop :=
  (cols = [] /\ m = l) \/ (cols <> [] /\ renames cols l m).
Definition fields_of (src : node) (m : list (option string * dtype)) : list sfield :=
  map (fun p => mkF (fst p) src (snd p)) m.
Lemma rename_renames cols l m src :
  renames cols (map (fun f => (f_name f, f_type f)) l) m <-> rename cols l src = Ok (fields_of src m) .
Proof.
  revert cols m. induction l as [|f l IH]; intros cols m; cbn [map].
  - split; intro H.
    + inversion H; subst. destruct cols; reflexivity.
    + destruct m as [|x m]; [constructor|]. destruct cols; discriminate H.
  - split; intro H.
    + inversion H; subst. cbn [rename]. match goal with R : renames _ _ _ |- _ => apply IH in R; rewrite R end. reflexivity.
    + destruct cols as [|c cs]; [discriminate H|]. cbn [rename] in H.
      destruct (rename cs l src) as [r|] eqn:R; [|discriminate H]. cbn [bind] in H.
      destruct m as [|[n t] m]; [discriminate H|]. cbn [fields_of map fst snd] in H. injection H as <- <- E.
      constructor. apply IH. subst r. exact R.
Qed.
Lemma rename_shape cols l src fs : rename cols l src = Ok fs -> exists m, fs = fields_of src m.
Proof.
  revert cols fs. induction l as [|f l IH]; intros cols fs H.
  - exists []. destruct cols; injection H as <-; reflexivity.
  - destruct cols as [|c cs]; [discriminate H|]. cbn [rename] in H.
    destruct (rename cs l src) as [r|] eqn:R; [|discriminate H]. injection H as <-.
    destruct (IH _ _ R) as [m ->]. exists ((Some c, f_type f) :: m). reflexivity.
Qed.

(** * C49: aliases *)

(** An aliased relation has the columns of the relation, in order and with their types, under
    the column names of the alias if it has any; they all belong to the alias. *)
Theorem C49_alias_columns : forall sc r a cols out e',
  resolve sc (NAliasedRel r a cols) = Ok (out, e') ->
  exists rs r' m, resolve (maybe_prune r sc) r = Ok (rs, r') /\ e' = NAliasedRel r' a cols
    /\ named_as cols (columns rs) m /\ out = mkS (fields_of e' m) [a].
Proof.
  intros sc r a cols out e' H. cbn [resolve] in H. destruct (resolve (maybe_prune r sc) r) as [[rs r']|]; [|discriminate H].
  cbn [bind] in H. exists rs, r'. destruct cols as [|c cs].
  - cbn [bind] in H. injection H as <- <-. exists (columns rs). split; [reflexivity|]. split; [reflexivity|].
    split; [now left|]. unfold fields_of, columns. rewrite map_map. reflexivity.
  - destruct (rename (c :: cs) (s_fields rs) _) as [fs|] eqn:R; [|discriminate H]. cbn [bind] in H. injection H as <- <-.
    destruct (rename_shape _ _ _ _ R) as [m ->]. exists m. split; [reflexivity|]. split; [reflexivity|].
    split; [|reflexivity]. right. split; [discriminate|]. apply rename_renames in R. exact R.
Qed.
Print Assumptions C49_alias_columns.
(** It works exactly when there are enough names, and else raises IndexError. *)
Theorem C49_alias_resolves : forall sc r a cols rs r',
  resolve (maybe_prune r sc) r = Ok (rs, r') ->
  (exists m, named_as cols (columns rs) m /\
     resolve sc (NAliasedRel r a cols) = Ok (mkS (fields_of (NAliasedRel r' a cols) m) [a], NAliasedRel r' a cols))
  \/ (cols <> [] /\ length cols < length (columns rs) /\ resolve sc (NAliasedRel r a cols) = Err IndexError).
Proof.
  intros sc r a cols rs r' H. cbn [resolve]. rewrite H. cbn [bind]. destruct cols as [|c cs].
  - left. exists (columns rs). split; [now left|]. cbn [bind]. unfold fields_of, columns. rewrite map_map. reflexivity.
  - assert (G : forall l cols, (exists fs, rename cols l (NAliasedRel r' a (c :: cs)) = Ok fs)
        \/ (length cols < length l /\ rename cols l (NAliasedRel r' a (c :: cs)) = Err IndexError)).
    { induction l as [|f l IH]; intro k; [left; destruct k; eexists; reflexivity|].
      destruct k as [|d ds]; [right; cbn [length rename]; split; [lia|reflexivity]|].
      cbn [rename length]. destruct (IH ds) as [[fs E]|[L E]]; rewrite E; cbn [bind].
      - left. eexists. reflexivity.
      - right. split; [lia|reflexivity]. }
    destruct (G (s_fields rs) (c :: cs)) as [[fs E]|[L E]]; rewrite E; cbn [bind].
    + left. destruct (rename_shape _ _ _ _ E) as [m ->]. exists m. split; [|reflexivity]. right. split; [discriminate|].
      apply rename_renames in E. exact E.
    + right. split; [discriminate|]. split; [unfold columns; now rewrite map_length|reflexivity].
Qed.
Print Assumptions C49_alias_resolves.
(** Too many names are accepted silently. *)
Theorem C49_too_many_refuted :
  exists out e', resolve empty_schema (NAliasedRel (one "x") "a" ["p"; "q"; "r"]) = Ok (out, e') /\ columns out = [(Some "p", integer)].
Proof. eexists _, _. split; [vm_compute; reflexivity|reflexivity]. Qed.
Print Assumptions C49_too_many_refuted.
Local Definition two : node :=
  NSelect [NAliased (NLit (LInt 1%Z) integer) "x"; NLit (LStr "ab") (TVarchar (Some 2%Z))] None None None None false [] no_qattrs.
Example C49_case :
  (exists out e', resolve empty_schema (NAliasedRel two "a" ["p"; "q"]) = Ok (out, e')
     /\ columns out = [(Some "p", integer); (Some "q", TVarchar (Some 2%Z))])
  /\ (exists out e', resolve empty_schema (NAliasedRel two "a" []) = Ok (out, e')
     /\ columns out = [(Some "x", integer); (None, TVarchar (Some 2%Z))])
  /\ resolve empty_schema (NAliasedRel two "a" ["p"]) = Err IndexError.
Proof.
  split; [eexists _, _; split; [vm_compute; reflexivity|reflexivity]|].
  split; [eexists _, _; split; [vm_compute; reflexivity|reflexivity]|]. vm_compute. reflexivity.
Qed.

(** * C46: WITH names *)

(** WITH c (cols) AS (q) SELECT items FROM c: the items are resolved against exactly the
    columns of q under the names given, all belonging to c.  The surrounding schema [sc] must have other column names
    and nothing of a relation c; in the top-level call it is empty. *)
Theorem C46_with_scope : forall sc items c s cat wh gb hv d ws q cols ob off lim qs q' m out e',
  resolve empty_schema q = Ok (qs, q') -> is_query q = true -> named_as cols (columns qs) m ->
  NoDup (map f_name (s_fields sc) ++ map fst m) -> (forall f, In f (s_fields sc) -> ~ column_of c f) ->
  resolve sc (NSelect items (Some (NTable c s cat)) wh gb hv d ws (mkQ [NAliasedRel q c cols] ob off lim)) = Ok (out, e') ->
  exists items', Forall2 (resolves (mkS (fields_of (NAliasedRel q' c cols) m) [c])) items items'
    /\ Forall2 (fun v p => data_type v = Ok (snd p)) items' (columns out)
    /\ map fst (columns out) = map value_id items.
Proof.
  intros sc items c s cat wh gb hv d ws q cols ob off lim qs q' m out e' Hq Q M D N H.
  assert (A : resolve empty_schema (NAliasedRel q c cols)
              = Ok (mkS (fields_of (NAliasedRel q' c cols) m) [c], NAliasedRel q' c cols)).
  { assert (Hq' : resolve (maybe_prune q empty_schema) q = Ok (qs, q')) by (unfold maybe_prune; now rewrite Q).
    destruct M as [[-> ->]|[M1 M2]].
    - cbn [resolve]. rewrite Hq'. cbn [bind]. unfold fields_of, columns. now rewrite map_map.
    - cbn [resolve]. rewrite Hq'. cbn [bind]. destruct cols as [|k ks]; [congruence|].
      apply (rename_renames _ _ _ (NAliasedRel q' c (k :: ks))) in M2. now rewrite M2. }
  set (src := NAliasedRel q' c cols) in *.
  assert (Dn : forall l, map f_name (fields_of src l) = map fst l) by (intro l; unfold fields_of; now rewrite map_map).
  assert (Df : forall a l, NoDup (map f_name (a ++ fields_of src l)) <-> NoDup (map f_name a ++ map fst l))
    by (intros a l; rewrite map_app, Dn; reflexivity).
  assert (W : resolve_with resolve empty_schema [NAliasedRel q c cols] = Ok (mkS (fields_of src m) [c], [src])).
  { cbn [resolve_with]. rewrite A. cbn [bind].
    assert (X : merge empty_schema (mkS (fields_of src m) [c]) = Ok (mkS (fields_of src m) [c])).
    { rewrite C30_distinct_names; [reflexivity|]. cbn [empty_schema s_fields]. apply (Df []). cbn [map app].
      apply nodup_app_r in D. exact D. }
    rewrite X. reflexivity. }
  assert (X : merge sc (mkS (fields_of src m) [c]) = Ok (mkS (s_fields sc ++ fields_of src m) (s_ids sc ++ [c])))
    by (rewrite C30_distinct_names; [reflexivity|]; apply Df; exact D).
  assert (F : filter (from_table c) (s_fields sc ++ fields_of src m) = fields_of src m).
  { rewrite filter_app. assert (F1 : filter (from_table c) (s_fields sc) = []).
    { clear - N. induction (s_fields sc) as [|f l IH]; [reflexivity|]. cbn [filter].
      destruct (from_table c f) eqn:E; [exfalso; apply (N f); [now left|]; unfold from_table in E; apply name_eqb_eq in E; exact E|].
      apply IH. intros g G. apply N. now right. }
    rewrite F1. cbn [app]. clear. induction m as [|p m IH]; [reflexivity|]. cbn [fields_of map filter].
    change (from_table c (mkF (fst p) src (snd p))) with (String.eqb c c). rewrite String.eqb_refl. f_equal. exact IH. }
  cbn [resolve] in H. rewrite W in H. cbn [bind] in H. rewrite X in H. cbn [bind] in H.
  unfold maybe_prune in H. cbn [is_query s_ids s_fields] in H.
  assert (I : mem c (s_ids sc ++ [c]) = true).
  { apply mem_In. apply in_or_app. right. now left. }
  rewrite I, F in H. cbn [bind] in H.
  destruct (each (resolve_fields _) items) as [items'|] eqn:S; [|discriminate H]. cbn [bind] in H.
  destruct (each (output _) items') as [fs|] eqn:E; [|discriminate H]. cbn [bind] in H. injection H as <- <-.
  exists items'. apply each_forall in S, E. split; [|split].
  - eapply forall2_imp; [|exact S]. intros a b. apply C28_resolved.
  - unfold columns. cbn [s_fields]. clear - E. induction E as [|v f l fs E F IH]; [constructor|]. cbn [map].
    constructor; [|exact IH]. unfold output in E. destruct (data_type v); [|discriminate E]. injection E as <-. reflexivity.
  - unfold columns. cbn [s_fields]. rewrite map_map. transitivity (map f_name fs); [reflexivity|].
    assert (V : map f_name fs = map value_id items').
    { clear - E. induction E as [|v f l fs E F IH]; [reflexivity|]. cbn [map]. rewrite IH. f_equal.
      unfold output in E. destruct (data_type v); [|discriminate E]. injection E as <-. reflexivity. }
    rewrite V. clear - S. induction S as [|v v' l l' E F IH]; [reflexivity|]. cbn [map].
    rewrite (resolve_keeps_name _ _ _ E). now f_equal.
Qed.
Print Assumptions C46_with_scope.
(** A column of the query gets its type. *)
Theorem C46_with_column : forall c s cat wh gb hv d ws q cols ob off lim qs q' m x t,
  resolve empty_schema q = Ok (qs, q') -> is_query q = true -> named_as cols (columns qs) m ->
  NoDup (map fst m) -> In (Some x, t) m ->
  exists out e',
    resolve empty_schema
      (NSelect [NField x TRNone unknown] (Some (NTable c s cat)) wh gb hv d ws (mkQ [NAliasedRel q c cols] ob off lim)) = Ok (out, e')
    /\ columns out = [(Some x, t)].
Proof.
  intros c s cat wh gb hv d ws q cols ob off lim qs q' m x t Hq Q M D I.
  set (src := NAliasedRel q' c cols).
  assert (A : resolve empty_schema (NAliasedRel q c cols) = Ok (mkS (fields_of src m) [c], src)).
  { assert (Hq' : resolve (maybe_prune q empty_schema) q = Ok (qs, q')) by (unfold maybe_prune; now rewrite Q).
    destruct M as [[-> ->]|[M1 M2]].
    - cbn [resolve]. rewrite Hq'. cbn [bind]. unfold fields_of, columns. now rewrite map_map.
    - cbn [resolve]. rewrite Hq'. cbn [bind]. destruct cols as [|k ks]; [congruence|].
      apply (rename_renames _ _ _ src) in M2. unfold src in *. now rewrite M2. }
  assert (X : merge empty_schema (mkS (fields_of src m) [c]) = Ok (mkS (fields_of src m) [c])).
  { rewrite C30_distinct_names; [reflexivity|]. cbn [empty_schema s_fields app]. unfold fields_of. rewrite map_map. exact D. }
  assert (F : filter (from_table c) (fields_of src m) = fields_of src m).
  { clear. induction m as [|p m IH]; [reflexivity|]. cbn [fields_of map filter].
    change (from_table c (mkF (fst p) src (snd p))) with (String.eqb c c). rewrite String.eqb_refl. f_equal. exact IH. }
  assert (P : filter (fun f => name_eqb (f_name f) (Some x)) (fields_of src m) = [mkF (Some x) src t]).
  { clear - D I. induction m as [|[n u] m IH]; [destruct I|]. cbn [map fst] in D. inversion D; subst.
    cbn [fields_of map filter f_name fst snd]. destruct I as [I|I].
    - injection I as -> ->. assert (name_eqb (Some x) (Some x) = true) as -> by now apply name_eqb_eq. f_equal.
      clear - H1. induction m as [|[n u] m IH]; [reflexivity|]. cbn [map fst In] in H1. cbn [map filter f_name fst snd].
      destruct (name_eqb n (Some x)) eqn:E; [apply name_eqb_eq in E; tauto|]. apply IH. tauto.
    - destruct (name_eqb n (Some x)) eqn:E; [|now apply IH].
      apply name_eqb_eq in E. subst n. exfalso. apply H1. apply (in_map fst) in I. exact I. }
  cbn [resolve]. cbn [resolve_with]. rewrite A. cbn [bind]. rewrite X. cbn [bind]. rewrite X. cbn [bind].
  unfold maybe_prune. cbn [is_query s_ids s_fields].
  assert (mem c [c] = true) as -> by (apply mem_In; now left). rewrite F. cbn [bind].
  cbn [each resolve_fields make_field s_fields]. unfold make_field. cbn [s_fields]. rewrite P. cbn [the_type bind f_type].
  eexists _, _. split; [reflexivity|]. reflexivity.
Qed.
Print Assumptions C46_with_column.
(** The documented example: WITH a (foo) AS (SELECT 1), b (bar) AS (SELECT a.foo + 1 FROM a)
    SELECT bar FROM b.  The second name is not resolved with the first in view ([C45_closed]), so that bar has no type. *)
Theorem C46_chain_refuted :
  exists out e', resolve empty_schema
      (sel [col "bar"] (tbl "b")
         [NAliasedRel (NSelect [NLit (LInt 1%Z) integer] None None None None false [] no_qattrs) "a" ["foo"];
          NAliasedRel (sel [NBin BAdd (NField "foo" (TRStr "a") unknown) (NLit (LInt 1%Z) integer)] (tbl "a") []) "b" ["bar"]])
    = Ok (out, e') /\ columns out = [(Some "bar", unknown)].
Proof. eexists _, _. split; [vm_compute; reflexivity|reflexivity]. Qed.
Print Assumptions C46_chain_refuted.
(** A table s.c of some schema is taken for the WITH name c; a duplicate column is lost; and without FROM
    the WITH clause is not looked at, even if it could not be resolved. *)
Theorem C46_names_refuted :
  (exists out e', resolve empty_schema (sel [col "x"] (NTable "c" (Some "s") None) [cte]) = Ok (out, e')
     /\ columns out = [(Some "x", integer)])
  /\ (exists out e', resolve empty_schema
         (sel [NStar TRNone unknown] (tbl "c")
            [NAliasedRel (NSelect [NLit (LInt 1%Z) integer; NLit (LInt 2%Z) integer] None None None None false [] no_qattrs) "c" []]) = Ok (out, e')
     /\ map f_type (s_fields out) = [TRow [integer]])
  /\ (exists out e', resolve empty_schema
         (NSelect [NLit (LInt 1%Z) integer] None None None None false [] (mkQ [NAliasedRel two "a" ["p"]] [] None None)) = Ok (out, e')
     /\ columns out = [(None, integer)]).
Proof.
  split; [|split]; eexists _, _; (split; [vm_compute; reflexivity|reflexivity]).
Qed.
Print Assumptions C46_names_refuted.
Example C46_case :
  (exists qs q', resolve empty_schema two = Ok (qs, q') /\ named_as ["p"; "q"] (columns qs) [(Some "p", integer); (Some "q", TVarchar (Some 2%Z))])
  /\ is_query two = true.
Proof.
  split; [|reflexivity]. eexists _, _. split; [vm_compute; reflexivity|]. right. split; [discriminate|].
  constructor. constructor. constructor.
Qed.

(** * C47: joins of tables *)

(** A table or an aliased table. *)
Inductive table_ref : node -> string -> string -> Prop :=
| plain n s c : table_ref (NTable n s c) n n
| with_alias n s c a : table_ref (NAliasedRel (NTable n s c) a []) n a.
(** The columns of the schema that belong to a table. *)
Definition table_columns (sc : schema) (n : string) : list sfield := filter (from_table n) (s_fields sc).
Inductive leaf_columns (sc : schema) : node -> list sfield -> Prop :=
| plain_columns n s c : leaf_columns sc (NTable n s c) (table_columns sc n)
| alias_columns n s c a :
    leaf_columns sc (NAliasedRel (NTable n s c) a [])
      (map (fun f => mkF (f_name f) (NAliasedRel (NTable n s c) a []) (f_type f)) (table_columns sc n)).
(** A join tree over tables: the leaves from left to right. *)
Inductive join_of : node -> list node -> Prop :=
| join_leaf e n a : table_ref e n a -> join_of e [e]
| join_node l r jt nat c ll lr : join_of l ll -> join_of r lr -> join_of (NJoin l r jt nat c) (ll ++ lr).
(** The table a leaf reads and the name it is known by. *)
Definition reads_table (e : node) : option string :=
  match e with NAliasedRel r _ _ => rel_id r | _ => rel_id e end.
(** A catalogue: columns of tables, each belonging to a listed table, with
    distinct names within a table. *)
Record catalogue (sc : schema) : Prop := {
  cat_based : based sc;
  cat_listed : forall f n, In f (s_fields sc) -> column_of n f -> In n (s_ids sc);
  cat_names : forall n, NoDup (map f_name (table_columns sc n)) }.
(** No two leaves go by one name, and an alias is neither the name of a table that is read nor of one in the catalogue. *)
Record fresh (sc : schema) (leaves : list node) : Prop := {
  fresh_names : NoDup (map rel_id leaves);
  fresh_alias : forall n s c a, In (NAliasedRel (NTable n s c) a []) leaves ->
    (forall e, In e leaves -> reads_table e <> Some a) /\ (forall f, In f (s_fields sc) -> ~ column_of a f) }.
Definition lc (sc : schema) (e : node) : list sfield :=
  match e with
  | NTable n _ _ => table_columns sc n
  | NAliasedRel (NTable n _ _) _ _ => map (resource e) (table_columns sc n)
  | _ => []
  end.
Definition is_leaf (e : node) : Prop := exists n a, table_ref e n a.
Lemma lc_columns sc e : is_leaf e -> leaf_columns sc e (lc sc e).
Proof. intros (n & a & []); constructor. Qed.
Lemma lc_owner sc e f : is_leaf e -> In f (lc sc e) -> rel_id (f_source f) = rel_id e.
Proof.
  intros (n & a & [n' s c|n' s c a']) I; cbn [lc] in I.
  - apply filter_In in I as [_ I]. unfold from_table in I. now apply name_eqb_eq in I.
  - apply in_map_iff in I as (g & <- & _). reflexivity.
Qed.
Lemma lc_based sc e f : based sc -> is_leaf e -> In f (lc sc e) -> base (f_source f).
Proof.
  intros B (n & a & [n' s c|n' s c a']) I; cbn [lc] in I.
  - apply filter_In in I as [I _]. unfold based in B. rewrite Forall_forall in B. now apply B.
  - apply in_map_iff in I as (g & <- & _). exact Logic.I.
Qed.
Lemma nodup_of_names {A B} (g : A -> B) l : NoDup (map g l) -> NoDup l.
Proof.
  induction l as [|a l IH]; cbn [map]; intro H; [constructor|]. inversion H; subst. constructor; [|now apply IH].
  intro I. apply H2. now apply in_map.
Qed.
Lemma lc_nodup sc e : catalogue sc -> is_leaf e -> NoDup (lc sc e).
Proof.
  intros C (n & a & [n' s c|n' s c a']); cbn [lc].
  - apply (nodup_of_names f_name). apply (cat_names _ C).
  - apply (nodup_of_names f_name). rewrite map_map. exact (cat_names _ C n').
Qed.
Lemma concat_owner sc ls f : Forall is_leaf ls -> In f (concat (map (lc sc) ls)) ->
  exists e, In e ls /\ In f (lc sc e) /\ rel_id (f_source f) = rel_id e.
Proof.
  intros L I. apply in_concat in I as (l & I & If). apply in_map_iff in I as (e & <- & Ie).
  exists e. split; [exact Ie|]. split; [exact If|]. rewrite Forall_forall in L. now apply (lc_owner sc e f (L e Ie)).
Qed.
Lemma nodup_app {A} (l m : list A) : NoDup l -> NoDup m -> (forall x, In x l -> ~ In x m) -> NoDup (l ++ m).
Proof.
  intros L M D. induction L as [|a l N L IH]; cbn [app]; [exact M|]. constructor.
  - rewrite in_app_iff. intros [X|X]; [contradiction|]. apply (D a); [now left|exact X].
  - apply IH. intros x X. apply D. now right.
Qed.
Lemma concat_nodup sc ls : catalogue sc -> Forall is_leaf ls -> NoDup (map rel_id ls) -> NoDup (concat (map (lc sc) ls)).
Proof.
  intros C L D. induction L as [|e ls Le L IH]; cbn [map concat]; [constructor|]. cbn [map] in D. inversion D; subst.
  apply nodup_app; [now apply lc_nodup|now apply IH|]. intros f F1 F2. apply H1.
  apply (lc_owner _ _ _ Le) in F1. destruct (concat_owner _ _ _ L F2) as (e' & I & _ & O). rewrite <- F1, O. now apply in_map.
Qed.
Lemma join_leaves e ls : join_of e ls -> Forall is_leaf ls.
Proof.
  induction 1 as [e n a T|]; [constructor; [now exists n, a|constructor]|]. now apply Forall_app.
Qed.
(** What a schema has for the tables that are read. *)
Definition extends (sc : schema) (all : list node) (sc' : schema) : Prop :=
  based sc' /\ (forall e n, In e all -> reads_table e = Some n -> table_columns sc' n = table_columns sc n)
  /\ (forall n, In n (s_ids sc) -> In n (s_ids sc')).
Definition ids_of (ls : list node) : list string := concat (map (fun e => match rel_id e with Some n => [n] | None => [] end) ls).

Lemma table_found sc all sc' e n s c : catalogue sc -> extends sc all sc' -> In e all -> reads_table e = Some n ->
  resolve sc' (NTable n s c) = Ok (mkS (table_columns sc n) [n], NTable n s c).
Proof.
  intros C (_ & T & I) M R. cbn [resolve]. specialize (T e n M R). fold (table_columns sc' n). rewrite T.
  destruct (mem n (s_ids sc')) eqn:E; [reflexivity|].
  assert (table_columns sc n = []) as ->; [|reflexivity].
  assert (N : ~ In n (s_ids sc)) by (intro X; apply I, mem_In in X; congruence).
  destruct (table_columns sc n) as [|f l] eqn:F; [reflexivity|]. exfalso. apply N.
  assert (X : In f (table_columns sc n)) by (rewrite F; now left). apply filter_In in X as [X1 X2].
  apply (cat_listed _ C f n X1). unfold from_table in X2. now apply name_eqb_eq in X2.
Qed.
Lemma join_resolves sc all : catalogue sc -> fresh sc all -> Forall is_leaf all ->
  forall e ls, join_of e ls -> incl ls all -> NoDup (map rel_id ls) -> forall sc', extends sc all sc' ->
  resolve sc' e = Ok (mkS (concat (map (lc sc) ls)) (ids_of ls), e).
Proof.
  intros C F LA e ls J. induction J as [e n a T|l r jt nat c ll lr Jl IHl Jr IHr]; intros Inc D sc' X.
  - destruct T as [n s c|n s c a].
    + rewrite (table_found sc all sc' (NTable n s c) n s c C X); [|now apply Inc; left|reflexivity].
      cbn [map lc concat ids_of rel_id app]. now rewrite app_nil_r.
    + cbn [resolve]. unfold maybe_prune. cbn [is_query].
      pose proof (table_found sc all sc' (NAliasedRel (NTable n s c) a []) n s c C X (Inc _ (or_introl eq_refl)) eq_refl) as R.
      cbn [resolve] in R. rewrite R. cbn [bind s_fields map lc concat ids_of rel_id app]. now rewrite app_nil_r.
  - rewrite map_app in D.
    assert (Il : incl ll all) by (intros x I; apply Inc, in_or_app; now left).
    assert (Ir : incl lr all) by (intros x I; apply Inc, in_or_app; now right).
    assert (Dr : NoDup (map rel_id lr)) by (eapply nodup_app_r; exact D).
    assert (Dl : NoDup (map rel_id ll)).
    { clear - D. induction ll as [|x l IH]; cbn [map app] in *; [constructor|]. inversion D; subst. constructor; [|now apply IH].
      intro I. apply H1. apply in_or_app. now left. }
    pose proof (join_leaves _ _ Jl) as Ll. pose proof (join_leaves _ _ Jr) as Lr.
    assert (Ml : forall f, In f (concat (map (lc sc) ll)) -> base (f_source f)).
    { intros f I. destruct (concat_owner _ _ _ Ll I) as (e & Ie & If & _). rewrite Forall_forall in Ll.
      exact (lc_based sc e f (cat_based _ C) (Ll e Ie) If). }
    assert (Mr : forall f, In f (concat (map (lc sc) lr)) -> base (f_source f)).
    { intros f I. destruct (concat_owner _ _ _ Lr I) as (e & Ie & If & _). rewrite Forall_forall in Lr.
      exact (lc_based sc e f (cat_based _ C) (Lr e Ie) If). }
    assert (Pl : forall x, maybe_prune l x = x) by (intro x; unfold maybe_prune; destruct Jl as [? ? ? []|]; reflexivity).
    assert (Pr : forall x, maybe_prune r x = x) by (intro x; unfold maybe_prune; destruct Jr as [? ? ? []|]; reflexivity).
    cbn [resolve]. rewrite Pl, (IHl Il Dl sc' X). cbn [bind].
    set (sl := mkS (concat (map (lc sc) ll)) (ids_of ll)).
    set (sr := mkS (concat (map (lc sc) lr)) (ids_of lr)).
    assert (Bl : based sl) by (apply Forall_forall; exact Ml).
    assert (Br : based sr) by (apply Forall_forall; exact Mr).
    destruct X as (X1 & X2 & X3).
    destruct (C30_columns_of_tables sc' sl X1 Bl) as (s2 & kept & Es & Fs & Sub & _ & K). rewrite Es. cbn [bind].
    assert (Ids : forall a b c, merge a b = Ok c -> s_ids c = s_ids a ++ s_ids b).
    { intros a b c0 E. unfold merge in E. destruct (merge_fields _ _); [|discriminate E]. injection E as <-. reflexivity. }
    rewrite Pr, (IHr Ir Dr s2).
    + cbn [bind]. fold sr. destruct (C30_columns_of_tables sl sr Bl Br) as (s3 & _ & E3 & _). rewrite E3. cbn [bind].
      assert (F3 : s_fields s3 = s_fields sl ++ s_fields sr).
      { apply (C30_nothing_lost sl sr s3 Bl Br E3).
        - apply concat_nodup; assumption.
        - intros f F1 F2. destruct (concat_owner _ _ _ Ll F1) as (e1 & I1 & _ & O1).
          destruct (concat_owner _ _ _ Lr F2) as (e2 & I2 & _ & O2).
          apply (in_map rel_id) in I1, I2. rewrite <- O1 in I1. rewrite <- O2 in I2.
          clear - D I1 I2. induction (map rel_id ll) as [|x k IH]; cbn [app] in *; [destruct I1|].
          inversion D; subst. destruct I1 as [->|I1]; [apply H1; apply in_or_app; now right|now apply IH]. }
      pose proof (Ids _ _ _ E3) as Is. destruct s3 as [f3 i3]. cbn [s_fields s_ids] in F3, Is. subst f3 i3.
      cbn [s_fields s_ids sl sr]. unfold ids_of. rewrite !map_app, !concat_app. reflexivity.
    + split; [|split].
      * unfold based. rewrite Fs. apply Forall_app. split; [exact X1|]. apply Forall_forall. intros f I.
        apply (sublist_in _ _ f Sub) in I. unfold based in Bl. rewrite Forall_forall in Bl. now apply Bl.
      * intros e n Ie R. unfold table_columns. rewrite Fs, filter_app. fold (table_columns sc' n). rewrite (X2 e n Ie R).
        assert (filter (from_table n) kept = []) as ->; [|apply app_nil_r].
        destruct (filter (from_table n) kept) as [|f rest] eqn:Ef; [reflexivity|]. exfalso.
        assert (If : In f (filter (from_table n) kept)) by (rewrite Ef; now left).
        apply filter_In in If as [If Ef']. unfold from_table in Ef'. apply name_eqb_eq in Ef'. apply K in If as [If Nf].
        destruct (concat_owner _ _ _ Ll If) as (g & Ig & Ifg & O). rewrite Forall_forall in Ll.
        destruct (Ll g Ig) as (m & a & T). destruct T as [m' s c0|m' s c0 a'].
        -- cbn [rel_id] in O. rewrite Ef' in O. injection O as <-. cbn [lc] in Ifg. rewrite <- (X2 e n Ie R) in Ifg.
           apply filter_In in Ifg as [Ifg _]. contradiction.
        -- cbn [rel_id] in O. rewrite Ef' in O. injection O as <-.
           destruct (fresh_alias _ _ F _ _ _ _ (Il _ Ig)) as [Fa _]. now apply (Fa e Ie).
      * intros n I. rewrite (Ids _ _ _ Es). apply in_or_app. left. now apply X3.
Qed.

(** Resolving a join tree of tables gives the columns of its tables from left to right, none
    lost or added, known by the names of the tables and aliases; the tree stays the same. *)
Theorem C47_join_columns : forall sc e leaves,
  join_of e leaves -> catalogue sc -> fresh sc leaves ->
  exists cols ids, Forall2 (leaf_columns sc) leaves cols
    /\ resolve sc e = Ok (mkS (concat cols) ids, e)
    /\ (forall n, In n ids <-> exists l, In l leaves /\ rel_id l = Some n).
Proof.
  intros sc e leaves J C F. pose proof (join_leaves _ _ J) as L. exists (map (lc sc) leaves), (ids_of leaves).
  split; [|split].
  - clear - L. induction L as [|e l Le L IH]; cbn [map]; constructor; [now apply lc_columns|exact IH].
  - apply (join_resolves sc leaves C F L e leaves J (incl_refl _) (fresh_names _ _ F) sc).
    split; [exact (cat_based _ C)|]. split; auto.
  - intro n. unfold ids_of. rewrite in_concat. split.
    + intros (x & I & In). apply in_map_iff in I as (l & <- & I). exists l. split; [exact I|].
      destruct (rel_id l); [|destruct In]. destruct In as [->|[]]. reflexivity.
    + intros (l & I & R). exists [n]. split; [|now left]. apply in_map_iff. exists l. rewrite R. now split.
Qed.
Print Assumptions C47_join_columns.
(** Without fresh names columns are mixed up: FROM t JOIN t has the columns of t once; in
    FROM t a JOIN a the second a is not the table a but the alias. *)
Local Definition cat2 : schema :=
  mkS [mkF (Some "x") (tbl "t") integer; mkF (Some "y") (tbl "t") bigint; mkF (Some "z") (tbl "a") boolean] ["t"; "a"].
Local Definition ali (n a : string) : node := NAliasedRel (tbl n) a [].
Theorem C47_names_refuted :
  (exists out e', resolve cat2 (NJoin (tbl "t") (tbl "t") JCross false None) = Ok (out, e')
     /\ columns out = [(Some "x", integer); (Some "y", bigint)])
  /\ (exists out e', resolve (mkS (firstn 2 (s_fields cat2)) ["t"]) (NJoin (ali "t" "a") (tbl "a") JCross false None) = Ok (out, e')
     /\ columns out = [(Some "x", integer); (Some "y", bigint)])
  /\ (exists out e', resolve cat2 (NJoin (ali "t" "a") (ali "a" "b") JCross false None) = Ok (out, e')
     /\ columns out = [(Some "x", integer); (Some "y", bigint); (Some "z", boolean); (Some "x", integer); (Some "y", bigint)]).
Proof. split; [|split]; eexists _, _; (split; [vm_compute; reflexivity|reflexivity]). Qed.
Print Assumptions C47_names_refuted.
Example C47_case :
  let e := NJoin (NJoin (ali "t" "p") (tbl "t") JInner false None) (ali "a" "q") JLeft false None in
  let leaves := [ali "t" "p"; tbl "t"; ali "a" "q"] in
  join_of e leaves /\ fresh cat2 leaves /\ catalogue cat2
  /\ exists out, resolve cat2 e = Ok (out, e)
     /\ columns out = [(Some "x", integer); (Some "y", bigint); (Some "x", integer); (Some "y", bigint); (Some "z", boolean)].
Proof.
  cbv zeta. split; [|split; [|split]].
  - apply (join_node _ _ _ _ _ [ali "t" "p"; tbl "t"] [ali "a" "q"]); [apply (join_node _ _ _ _ _ [ali "t" "p"] [tbl "t"])|].
    + eapply join_leaf. constructor.
    + eapply join_leaf. constructor.
    + eapply join_leaf. constructor.
  - constructor.
    + repeat constructor; cbn [map rel_id ali tbl In]; intuition discriminate.
    + intros n s c a I. cbn [In] in I. unfold ali, tbl in *. cbn [s_fields cat2] in *.
      assert (X : a = "p" \/ a = "q") by (destruct I as [I|[I|[I|[]]]]; try discriminate I; injection I; intros; subst; tauto).
      split.
      * intros e [<-|[<-|[<-|[]]]]; cbn; destruct X as [->| ->]; congruence.
      * intros f [<-|[<-|[<-|[]]]]; unfold column_of; cbn; destruct X as [->| ->]; congruence.
  - constructor.
    + repeat constructor.
    + intros f n I. cbn in I. destruct I as [<-|[<-|[<-|[]]]]; unfold column_of; cbn; intro E; injection E as <-; tauto.
    + intro n. unfold table_columns. cbn [s_fields cat2 filter]. unfold from_table. cbn [f_source tbl rel_id name_eqb opt_eqb].
      destruct (String.eqb "t" n) eqn:E1; destruct (String.eqb "a" n) eqn:E2; cbn [map f_name];
        try (apply String.eqb_eq in E1; apply String.eqb_eq in E2; subst; discriminate);
        repeat constructor; cbn [In]; intuition discriminate.
  - eexists. split; [vm_compute; reflexivity|reflexivity].
Qed.

(** * C48: UNNEST *)
Inductive element_type : dtype -> dtype -> Prop :=
| of_array t : element_type (TArray t) t
| of_other t : (forall u, t <> TArray u) -> element_type t unknown.
(** One unnamed column per array, with the type of its elements, whether or not WITH
    ORDINALITY is given. *)
Theorem C48_unnest_columns : forall sc vs o out e',
  resolve sc (NUnnest vs o) = Ok (out, e') ->
  exists vs' ts, e' = NUnnest vs' o /\ Forall2 (resolves sc) vs vs'
    /\ Forall2 (fun v t => data_type v = Ok t) vs' ts
    /\ Forall2 (fun t p => fst p = None /\ element_type t (snd p)) ts (columns out)
    /\ s_ids out = [].
Proof.
  intros sc vs o out e' H. cbn [resolve] in H. destruct (each (resolve_fields sc) vs) as [vs'|] eqn:E; [|discriminate H].
  cbn [bind] in H. unfold data_type in H. cbn [check] in H.
  destruct (each (fun x => tyof (check x)) vs') as [ts|] eqn:T; [|discriminate H]. cbn [bind tyof] in H. injection H as <- <-.
  apply each_forall in E, T. exists vs', ts. split; [reflexivity|]. split; [|split; [|split]].
  - eapply forall2_imp; [|exact E]. intros a b. apply C28_resolved.
  - exact T.
  - unfold columns. cbn [s_fields]. rewrite !map_map. clear. induction ts as [|t ts IH]; cbn [map]; constructor; [|exact IH].
    cbn [f_name f_type fst snd]. split; [reflexivity|]. destruct t; constructor; congruence.
  - reflexivity.
Qed.
Print Assumptions C48_unnest_columns.
(** So the number of columns never counts the ordinality column. *)
Theorem C48_ordinality_refuted : forall sc vs out e',
  resolve sc (NUnnest vs true) = Ok (out, e') -> length (columns out) = length vs.
Proof.
  intros sc vs out e' H. destruct (C48_unnest_columns _ _ _ _ _ H) as (vs' & ts & _ & R & T & C & _).
  apply forall2_len in R, T, C. congruence.
Qed.
Print Assumptions C48_ordinality_refuted.
(** Naming the ordinality column is accepted and without effect. *)
Example C48_case :
  exists out e', resolve (mkS [mkF (Some "v") (tbl "t") (TArray bigint); mkF (Some "w") (tbl "t") integer] ["t"])
      (NJoin (tbl "t") (NAliasedRel (NUnnest [col "v"; NArray [NLit (LInt 1%Z) integer]; col "w"] true) "u" ["a"; "b"; "c"; "n"]) JCross false None)
    = Ok (out, e')
  /\ columns out = [(Some "v", TArray bigint); (Some "w", integer); (Some "a", bigint); (Some "b", integer); (Some "c", unknown)].
Proof. eexists _, _. split; [vm_compute; reflexivity|reflexivity]. Qed.

(** * C50: VALUES *)

(** The VALUES queries that resolving comes across. *)
Inductive uses_values : node -> Prop :=
| uv_values es qa : uses_values (NValues es qa)
| uv_alias r a cols : uses_values r -> uses_values (NAliasedRel r a cols)
| uv_left l r jt nat c : uses_values l -> uses_values (NJoin l r jt nat c)
| uv_right l r jt nat c : uses_values r -> uses_values (NJoin l r jt nat c)
| uv_lateral q : uses_values q -> uses_values (NLateral q)
| uv_sample r st p : uses_values r -> uses_values (NSample r st p)
| uv_from sl f wh gb hv d ws qa : uses_values f -> uses_values (NSelect sl (Some f) wh gb hv d ws qa)
| uv_with sl f wh gb hv d ws wi ob off lim w : In w wi -> uses_values w -> uses_values (NSelect sl (Some f) wh gb hv d ws (mkQ wi ob off lim))
| uv_set_left op l r d qa : uses_values l -> uses_values (NSetQuery op l r d qa)
| uv_set_right op l r d qa : uses_values r -> uses_values (NSetQuery op l r d qa)
| uv_table_with t wi ob off lim w : In w wi -> uses_values w -> uses_values (NTableQuery t (mkQ wi ob off lim)).
Lemma resolve_with_all wi : forall acc res wi', resolve_with resolve acc wi = Ok (res, wi') ->
  forall w, In w wi -> exists sc r, resolve sc w = Ok r.
Proof.
  induction wi as [|x wi IH]; intros acc res wi' H w I; [destruct I|]. cbn [resolve_with] in H.
  destruct (resolve acc x) as [[sc x']|] eqn:E; [|discriminate H]. cbn [bind] in H.
  destruct (merge acc sc) as [acc'|]; [|discriminate H]. cbn [bind] in H.
  destruct (resolve_with resolve acc' wi) as [[res' r']|] eqn:G; [|discriminate H].
  destruct I as [->|I]; [eexists _, _; exact E|]. exact (IH _ _ _ G w I).
Qed.
Theorem C50_values_raise : forall e, uses_values e -> forall sc, exists x, resolve sc e = Err x.
Proof.
  intros e U sc. destruct (resolve sc e) as [r|x] eqn:E; [|now exists x]. exfalso. revert sc r E.
  induction U; intros sc' res E; cbn [resolve] in E; try discriminate E.
  - unbind. eapply IHU. eassumption.
  - destruct (resolve (maybe_prune l sc') l) as [x|] eqn:R; [|discriminate E]. eapply IHU. exact R.
  - destruct (resolve (maybe_prune l sc') l) as [[ls l']|]; [|discriminate E]. cbn [bind] in E.
    destruct (merge sc' ls) as [s2|]; [|discriminate E]. cbn [bind] in E.
    destruct (resolve (maybe_prune r s2) r) as [x|] eqn:R; [|discriminate E]. eapply IHU. exact R.
  - destruct (resolve sc' q) as [x|] eqn:R; [|discriminate E]. eapply IHU. exact R.
  - destruct (resolve sc' r) as [x|] eqn:R; [|discriminate E]. eapply IHU. exact R.
  - destruct qa as [wi ob off lim]. destruct (resolve_with resolve empty_schema wi) as [[wsc wi']|]; [|discriminate E]. cbn [bind] in E.
    destruct (merge sc' wsc) as [ex|]; [|discriminate E]. cbn [bind] in E.
    destruct (resolve (maybe_prune f ex) f) as [x|] eqn:R; [|discriminate E]. eapply IHU. exact R.
  - destruct (resolve_with resolve empty_schema wi) as [[wsc wi']|] eqn:R; [|discriminate E].
    destruct (resolve_with_all _ _ _ _ R w H) as (s & r & X). eapply IHU. exact X.
  - destruct (resolve (maybe_prune l sc') l) as [x|] eqn:R; [|discriminate E]. eapply IHU. exact R.
  - destruct (resolve (maybe_prune l sc') l) as [[ls l']|]; [|discriminate E]. cbn [bind] in E.
    destruct (resolve (maybe_prune r sc') r) as [x|] eqn:R; [|discriminate E]. eapply IHU. exact R.
  - destruct (resolve_with resolve empty_schema wi) as [[wsc wi']|] eqn:R; [|discriminate E].
    destruct (resolve_with_all _ _ _ _ R w H) as (s & r & X). eapply IHU. exact X.
Qed.
Print Assumptions C50_values_raise.
(** SELECT x FROM (VALUES 1) v (x). *)
Example C50_case :
  uses_values (sel [col "x"] (NAliasedRel (NValues [NLit (LInt 1%Z) integer] no_qattrs) "v" ["x"]) [])
  /\ resolve empty_schema (sel [col "x"] (NAliasedRel (NValues [NLit (LInt 1%Z) integer] no_qattrs) "v" ["x"]) []) = Err TypeError.
Proof. split; [apply uv_from; constructor; constructor|vm_compute; reflexivity]. Qed.
