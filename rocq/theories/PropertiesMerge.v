(** Properties of merging schemas (C30). *)
From Coq Require Import String List ZArith Bool Lia.
From Verif Require Import PyStr Types Inference TypeFacts Conversions Functions Ast Walk Sql Tokens NodeFacts Schema ConversionFacts PropertiesLiterals
  PropertiesResolve.
Import ListNotations.
Open Scope nat_scope.
Open Scope string_scope.
Open Scope list_scope.

(** [r] is [l] with some elements left out. *)
Inductive sublist {A} : list A -> list A -> Prop :=
| sublist_nil : sublist [] []
| sublist_keep a r l : sublist r l -> sublist (a :: r) (a :: l)
| sublist_skip a r l : sublist r l -> sublist r (a :: l).
(** Base tables, and aliases of such. *)
Fixpoint base (e : node) : Prop :=
  match e with NTable _ _ _ => True | NAliasedRel r _ _ => base r | _ => False end.
Definition based (sc : schema) : Prop := Forall (fun f => base (f_source f)) (s_fields sc).

Lemma sublist_app {A} (a b c d : list A) : sublist a b -> sublist c d -> sublist (a ++ c) (b ++ d).
Proof. induction 1; cbn [app]; intro H'; [exact H'|constructor..]; auto. Qed.
Lemma sublist_refl {A} (l : list A) : sublist l l.
Proof. induction l; constructor; assumption. Qed.
Lemma sublist_in {A} (r l : list A) x : sublist r l -> In x r -> In x l.
Proof. induction 1; cbn [In]; tauto. Qed.

(** Whatever the columns are: those of the left come first and stay. *)
Lemma merge_fields_shape acc l r : merge_fields acc l = Ok r -> exists kept, r = acc ++ kept /\ sublist kept l.
Proof.
  revert acc. induction l as [|f l IH]; cbn [merge_fields]; intros acc E.
  - injection E as <-. exists []. rewrite app_nil_r. split; [reflexivity|constructor].
  - destruct (sfield_in f acc) as [[]|]; cbn [bind] in E; [..|discriminate E].
    + destruct (IH _ E) as (k & -> & S). exists k. split; [reflexivity|now constructor].
    + destruct (IH _ E) as (k & -> & S). exists (f :: k). rewrite <- app_assoc. split; [reflexivity|now constructor].
Qed.
Theorem C30_left_kept : forall a b c, merge a b = Ok c ->
  (exists kept, s_fields c = s_fields a ++ kept /\ sublist kept (s_fields b))
  /\ (forall n, In n (s_ids c) <-> In n (s_ids a) \/ In n (s_ids b)).
Proof.
  intros a b c H. unfold merge in H. destruct (merge_fields _ _) as [fs|] eqn:E; [|discriminate H]. injection H as <-.
  cbn [s_fields s_ids]. split; [now apply merge_fields_shape|]. intro n. now rewrite in_app_iff.
Qed.
Print Assumptions C30_left_kept.

(** * Columns of tables *)
Lemma list_eqb_eq {A} (eq : A -> A -> bool) l m : (forall x y, eq x y = true <-> x = y) -> list_eqb eq l m = true <-> l = m.
Proof.
  intro H. revert m. induction l as [|x l IH]; intros [|y m]; cbn [list_eqb]; try (split; congruence).
  rewrite andb_true_iff, H, IH. split; [intros [-> ->]; reflexivity|]. intro E. injection E as -> ->. now split.
Qed.
Lemma base_eq a b : base a -> base b -> exists c, rel_eq a b = Ok c /\ (c = true <-> a = b).
Proof.
  revert b. induction a; cbn [base]; intros b Ha Hb; try contradiction.
  - destruct b; try contradiction.
    + cbn [rel_eq is_query orb]. eexists. split; [reflexivity|]. rewrite !andb_true_iff, String.eqb_eq, !name_eqb_eq.
      split; [intros [[-> ->] ->]; reflexivity|]. intro E. injection E as -> -> ->. now split.
    + exists false. split; [reflexivity|]. split; discriminate.
  - destruct b; try contradiction.
    + exists false. split; [reflexivity|]. split; discriminate.
    + cbn [base] in Hb. destruct (IHa b Ha Hb) as (c & E & Hc). cbn [rel_eq is_query orb]. rewrite E. unfold and_then. cbn [bind].
      destruct c.
      * eexists. split; [reflexivity|]. rewrite andb_true_iff, String.eqb_eq, (list_eqb_eq _ _ _ String.eqb_eq).
        destruct Hc as [Hc _]. rewrite (Hc eq_refl). split; [intros [-> ->]; reflexivity|]. intro X. injection X as -> ->. now split.
      * exists false. split; [reflexivity|]. split; [discriminate|]. intro X. injection X as X _ _. apply Hc in X. discriminate X.
Qed.
Lemma sfield_base_eq f g : base (f_source f) -> base (f_source g) -> exists c, sfield_eq f g = Ok c /\ (c = true <-> f = g).
Proof.
  destruct f as [n s t], g as [n' s' t']. cbn [f_source]. intros Hf Hg. unfold sfield_eq. cbn [f_name f_source f_type].
  destruct (name_eqb n n') eqn:N.
  - apply name_eqb_eq in N. subst n'. destruct (base_eq s s' Hf Hg) as (c & -> & Hc). unfold and_then. cbn [bind]. destruct c.
    + destruct Hc as [Hc _]. rewrite (Hc eq_refl). eexists. split; [reflexivity|]. rewrite dtype_eqb_eq.
      split; [intros ->; reflexivity|congruence].
    + exists false. split; [reflexivity|]. split; [discriminate|]. intro X. injection X as X _. apply Hc in X. discriminate X.
  - exists false. split; [reflexivity|]. split; [discriminate|]. intro X. injection X as X _ _. apply name_eqb_eq in X. congruence.
Qed.
Lemma sfield_base_in f l : base (f_source f) -> Forall (fun f => base (f_source f)) l ->
  exists c, sfield_in f l = Ok c /\ (c = true <-> In f l).
Proof.
  intros Hf H. induction H as [|g l Hg H IH]; cbn [sfield_in].
  - exists false. split; [reflexivity|]. split; [discriminate|intros []].
  - destruct (sfield_base_eq g f Hg Hf) as (c & -> & Hc). cbn [bind]. destruct c.
    + exists true. split; [reflexivity|]. split; [|reflexivity]. intros _. left. now apply Hc.
    + destruct IH as (d & E & Hd). exists d. split; [exact E|]. rewrite Hd. split; [now right|].
      intros [X|X]; [|exact X]. apply Hc in X. discriminate X.
Qed.
Lemma merge_fields_base acc l :
  Forall (fun f => base (f_source f)) acc -> Forall (fun f => base (f_source f)) l ->
  exists kept, merge_fields acc l = Ok (acc ++ kept) /\ sublist kept l /\ NoDup kept
    /\ forall f, In f kept <-> In f l /\ ~ In f acc.
Proof.
  intros Ha Hl. revert acc Ha. induction Hl as [|f l Hf Hl IH]; intros acc Ha; cbn [merge_fields].
  - exists []. rewrite app_nil_r. split; [reflexivity|]. split; [constructor|]. split; [constructor|]. cbn [In]. tauto.
  - destruct (sfield_base_in f acc Hf Ha) as (c & -> & Hc). cbn [bind]. destruct c.
    + destruct (IH acc Ha) as (k & E & S & D & M). exists k. split; [exact E|]. split; [now constructor|]. split; [exact D|].
      intro g. rewrite M. cbn [In]. split; [tauto|]. intros [[<-|X] Y]; [|tauto]. exfalso. apply Y. now apply Hc.
    + destruct (IH (acc ++ [f])) as (k & E & S & D & M).
      { apply Forall_app. split; [exact Ha|]. now constructor. }
      rewrite <- app_assoc in E. exists (f :: k). split; [exact E|]. split; [now constructor|].
      assert (N : ~ In f acc) by (intro X; apply Hc in X; discriminate X).
      split.
      * constructor; [|exact D]. rewrite M. intros [_ X]. apply X. apply in_or_app. right. now left.
      * intro g. cbn [In]. rewrite M, in_app_iff. cbn [In]. split.
        -- intros [<-|[X Y]]; [tauto|]. split; [now right|]. tauto.
        -- intros [[<-|X] Y]; [now left|].
           destruct (sfield_base_in g [f]) as (c & _ & Hg).
           { rewrite Forall_forall in Hl. now apply Hl. }
           { now constructor. }
           destruct c; [left; destruct Hg as [Hg _]; destruct (Hg eq_refl) as [?|[]]; assumption|].
           right. split; [exact X|]. intros [Z|[Z|[]]]; [tauto|]. enough (false = true) by discriminate. apply Hg. now left.
Qed.
(** Merging the columns of tables never raises; kept from the right are, in
    order and once each, exactly those the left does not have. *)
Theorem C30_columns_of_tables : forall a b, based a -> based b ->
  exists c kept, merge a b = Ok c /\ s_fields c = s_fields a ++ kept
    /\ sublist kept (s_fields b) /\ NoDup kept
    /\ forall f, In f kept <-> In f (s_fields b) /\ ~ In f (s_fields a).
Proof.
  intros a b Ha Hb. destruct (merge_fields_base _ _ Ha Hb) as (k & E & S). unfold merge. rewrite E. cbn [bind].
  eexists _, k. split; [reflexivity|]. cbn [s_fields]. split; [reflexivity|exact S].
Qed.
Print Assumptions C30_columns_of_tables.
(** In particular nothing is lost if no column is in both. *)
Theorem C30_nothing_lost : forall a b c, based a -> based b -> merge a b = Ok c ->
  NoDup (s_fields b) -> (forall f, In f (s_fields a) -> ~ In f (s_fields b)) ->
  s_fields c = s_fields a ++ s_fields b.
Proof.
  intros a b c Ha Hb H D N. destruct (C30_columns_of_tables a b Ha Hb) as (c' & k & E & F & S & Dk & M).
  rewrite H in E. injection E as <-. rewrite F. f_equal.
  assert (M' : forall f, In f (s_fields b) -> In f k). { intros f Hf. apply M. split; [exact Hf|]. intro X. exact (N f X Hf). }
  clear -S D M'. induction S as [|f r l S IH|f r l S IH]; [reflexivity|..].
  - f_equal. inversion D; subst. apply IH; [assumption|]. intros g Hg. destruct (M' g (or_intror Hg)) as [<-|X]; [contradiction|exact X].
  - exfalso. inversion D; subst. apply (sublist_in _ _ f) in S; [contradiction|]. apply M'. now left.
Qed.
Print Assumptions C30_nothing_lost.

(** * Columns of sub-queries

    Two different queries as sources are not told apart, ... *)
Theorem C30_subqueries_collapse : forall n t q q' i j,
  is_query q = true -> is_query q' = true ->
  merge (mkS [mkF n q t] i) (mkS [mkF n q' t] j) = Ok (mkS [mkF n q t] (i ++ j)).
Proof.
  assert (V : forall q, is_query q = true -> is_value q = true) by (intros []; cbn; congruence).
  intros n t q q' i j H H'. unfold merge. cbn [s_fields s_ids merge_fields sfield_in]. unfold sfield_eq. cbn [f_name f_source f_type].
  assert (name_eqb n n = true) as -> by now apply name_eqb_eq.
  assert (rel_eq q q' = Ok true) as ->.
  { pose proof (V _ H). pose proof (V _ H'). destruct q; try discriminate H; cbn [rel_eq is_query is_value orb andb]; now rewrite H1. }
  unfold and_then. cbn [bind]. assert (dtype_eqb t t = true) as -> by now apply dtype_eqb_eq. reflexivity.
Qed.
Print Assumptions C30_subqueries_collapse.
(** ... and merging raises if a query and a relation that is no query have a column of the same name. *)
Theorem C30_subquery_and_table_raise : forall n t t' q r i j,
  is_query q = true -> is_value r = false ->
  merge (mkS [mkF n q t] i) (mkS [mkF n r t'] j) = Err NotImplementedError
  /\ merge (mkS [mkF n r t'] j) (mkS [mkF n q t] i) = Err NotImplementedError.
Proof.
  intros n t t' q r i j H R. unfold merge. cbn [s_fields s_ids merge_fields sfield_in]. unfold sfield_eq. cbn [f_name f_source f_type].
  assert (name_eqb n n = true) as -> by now apply name_eqb_eq.
  split.
  - assert (rel_eq q r = Err NotImplementedError) as ->; [|reflexivity].
    destruct q; try discriminate H; cbn [rel_eq is_query is_value orb andb]; now rewrite R.
  - assert (rel_eq r q = Err NotImplementedError) as ->; [|reflexivity].
    destruct r; try discriminate R; cbn [rel_eq is_query is_value orb andb]; now rewrite H.
Qed.
Print Assumptions C30_subquery_and_table_raise.
(** An alias does not help against the latter. *)
Theorem C30_aliases_raise : forall n t t' q r a b ca cb i j,
  is_query q = true -> is_value r = false ->
  merge (mkS [mkF n (NAliasedRel q a ca) t] i) (mkS [mkF n (NAliasedRel r b cb) t'] j) = Err NotImplementedError.
Proof.
  intros n t t' q r a b ca cb i j H R. unfold merge. cbn [s_fields s_ids merge_fields sfield_in]. unfold sfield_eq. cbn [f_name f_source f_type].
  assert (name_eqb n n = true) as -> by now apply name_eqb_eq.
  assert (rel_eq (NAliasedRel q a ca) (NAliasedRel r b cb) = Err NotImplementedError) as ->; [|reflexivity].
  assert (E : rel_eq q r = Err NotImplementedError).
  { destruct q; try discriminate H; cbn [rel_eq is_query is_value orb andb]; now rewrite R. }
  cbn [rel_eq is_query is_value orb andb]. now rewrite E.
Qed.
Print Assumptions C30_aliases_raise.

(** Cases. *)
Local Definition t1 : node := NTable "a" None None.
Local Definition t2 : node := NAliasedRel (NTable "b" (Some "s") None) "c" [].
Local Definition sa : schema := mkS [mkF (Some "x") t1 integer; mkF (Some "y") t1 bigint] ["a"].
Local Definition sb : schema := mkS [mkF (Some "x") t2 integer; mkF (Some "y") t1 bigint; mkF (Some "z") t2 bigint; mkF (Some "x") t2 integer] ["c"; "d"].
Example C30_case :
  based sa /\ based sb
  /\ merge sa sb = Ok (mkS [mkF (Some "x") t1 integer; mkF (Some "y") t1 bigint; mkF (Some "x") t2 integer; mkF (Some "z") t2 bigint] ["a"; "c"; "d"]).
Proof. split; [now repeat constructor|]. split; [now repeat constructor|]. vm_compute. reflexivity. Qed.
Local Definition sub (n : string) : node := NSelect [NAliased (NLit (LInt 1%Z) integer) "x"; column n] None None None None false [] no_qattrs.
(** SELECT * FROM (SELECT 1, 2) CROSS JOIN (SELECT 3, 4): the columns of
    the second query are taken for those of the first, so that two of four columns are left. *)
Local Definition row2 (x y : Z) : node := NSelect [NLit (LInt x) integer; NLit (LInt y) integer] None None None None false [] no_qattrs.
Theorem C30_unnamed_refuted :
  exists sc e, resolve empty_schema (NSelect [NStar TRNone unknown] (Some (NJoin (row2 1 2) (row2 3 4) JCross false None)) None None None false [] no_qattrs) = Ok (sc, e)
  /\ map f_type (s_fields sc) = [TRow [integer; integer]].
Proof. eexists _, _. split; [vm_compute; reflexivity|reflexivity]. Qed.
Print Assumptions C30_unnamed_refuted.
Example C30_case_queries :
  is_query (sub "u") = true /\ is_query (sub "v") = true /\ sub "u" <> sub "v" /\ is_value t1 = false.
Proof. split; [reflexivity|]. split; [reflexivity|]. split; [discriminate|reflexivity]. Qed.
(** SELECT x FROM (SELECT 1 x, u) c JOIN b d over a known table b with a column x. *)
Example C30_case_raises :
  resolve (mkS [mkF (Some "x") (NTable "b" None None) integer] ["b"])
    (NSelect [NField "x" (TRStr "d") unknown]
       (Some (NJoin (NAliasedRel (sub "u") "c" []) (NAliasedRel (NTable "b" None None) "d" []) JCross false None))
       None None None false [] no_qattrs)
  = Err NotImplementedError.
Proof. vm_compute. reflexivity. Qed.
