(** C69: the operator [==] between relations.

    Relations other than queries have the equality that attrs 21.2.0 (setup.cfg 33)
    writes: the classes are compared, then the tuples of attributes (relation.py 544,
    718, 805, 847, 877, 911, 958, 1021, 1047).  A query is a value, for which [==] builds an object
    (expression.py 129-130), and an object counts as true. *)
From Coq Require Import String List ZArith NArith Bool Arith Lia.
From Verif Require Import PyStr Types Inference Functions Ast Sql Equals Schema PropertiesLiterals PropertiesEquals PropertiesParts.
Import ListNotations.
Open Scope nat_scope.
Open Scope string_scope.
Open Scope list_scope.

(** Relations, all the way down. *)
Inductive relation : node -> Prop :=
| r_query q : is_query q = true -> relation q
| r_table n s c : relation (NTable n s c)
| r_aliased r a l : relation r -> relation (NAliasedRel r a l)
| r_join l r jt nat c : relation l -> relation r -> relation (NJoin l r jt nat c)
| r_unnest l o : relation (NUnnest l o)
| r_lateral q : relation q -> relation (NLateral q)
| r_sample r st p : relation r -> relation (NSample r st p).

(** The same but for queries, conditions, arrays and percentages, of which only the
    presence and the number matter. *)
Inductive same_condition : option (jcrit node) -> option (jcrit node) -> Prop :=
| no_condition : same_condition None None
| same_using l : same_condition (Some (JUsing l)) (Some (JUsing l))
| any_on x y : same_condition (Some (JOn x)) (Some (JOn y)).
Inductive alike : node -> node -> Prop :=
| alike_queries q q' : is_query q = true -> is_query q' = true -> alike q q'
| alike_table n s c : alike (NTable n s c) (NTable n s c)
| alike_aliased r r' a l : alike r r' -> alike (NAliasedRel r a l) (NAliasedRel r' a l)
| alike_join l l' r r' jt nat c c' : alike l l' -> alike r r' -> same_condition c c' ->
    alike (NJoin l r jt nat c) (NJoin l' r' jt nat c')
| alike_unnest l l' o : length l = length l' -> alike (NUnnest l o) (NUnnest l' o)
| alike_lateral q q' : alike q q' -> alike (NLateral q) (NLateral q')
| alike_sample r r' st p p' : alike r r' -> alike (NSample r st p) (NSample r' st p').

Lemma names_eqb l m : list_eqb String.eqb l m = true <-> l = m.
Proof.
  revert m; induction l as [|x l IH]; intros [|y m]; cbn [list_eqb]; try (split; [discriminate|intros [=]]); [now split|].
  rewrite andb_true_iff, IH, String.eqb_eq. split; [intros [-> ->]; reflexivity|intros [= -> ->]; auto].
Qed.
Lemma name_eqb_iff a b : name_eqb a b = true <-> a = b.
Proof.
  destruct a as [x|], b as [y|]; unfold name_eqb; cbn [opt_eqb]; try (split; [discriminate|intros [=]]); [|now split].
  rewrite String.eqb_eq. split; [now intros ->|now intros [=]].
Qed.
Lemma crit_eqb_iff c c' : crit_eqb c c' = true <-> same_condition c c'.
Proof.
  destruct c as [[l|x]|], c' as [[m|y]|]; cbn [crit_eqb];
    try (split; [discriminate|intro H; inversion H]); try (split; [intros _; constructor|reflexivity]).
  rewrite names_eqb. split; [intros ->; constructor|intro H; now inversion H].
Qed.
Lemma join_eqb_iff a b : join_type_eqb a b = true <-> a = b.
Proof. destruct a, b; cbn; split; try reflexivity; try discriminate. Qed.
Lemma sample_eqb_iff a b : sample_type_eqb a b = true <-> a = b.
Proof. destruct a, b; cbn; split; try reflexivity; try discriminate. Qed.
Lemma and_then_true r k : and_then r k = Ok true <-> r = Ok true /\ k = Ok true.
Proof.
  unfold and_then. destruct r as [[]|]; cbn [bind]; split; try (intros [H _]; discriminate H); try discriminate; try tauto.
Qed.
Lemma query_value q : is_query q = true -> is_value q = true.
Proof. destruct q; try discriminate; reflexivity. Qed.
Lemma ok_true b : Ok b = Ok true <-> b = true.
Proof. split; [now intros [=]|now intros ->]. Qed.

Theorem C69_iff : forall a b, relation a -> relation b -> (rel_eq a b = Ok true <-> alike a b).
Proof.
  intros a b Ra. revert b. induction Ra as [q Q|n s c|r al l Rr IH|l r jt nat c Rl IHl Rr IHr|vs o|q Rq IH|r st p Rr IH]; intros b Rb.
  - assert (E : rel_eq q b = if (is_value q && is_value b)%bool then Ok true else Err NotImplementedError) by
      (destruct q; try discriminate Q; reflexivity).
    rewrite E, (query_value q Q). cbn [andb]. split.
    + destruct (is_value b) eqn:V; [|discriminate]. intros _. constructor; [exact Q|].
      destruct Rb; try assumption; discriminate V.
    + intro A. destruct A; try discriminate Q. now rewrite (query_value q').
  - destruct Rb as [q Q| | | | | |]; try (split; [discriminate|intro A; inversion A; subst; discriminate]).
    + assert (E : rel_eq (NTable n s c) q = Err NotImplementedError) by (destruct q; try discriminate Q; reflexivity).
      rewrite E. split; [discriminate|]. intro A. inversion A; subst; discriminate.
    + cbn [rel_eq is_query is_value orb andb]. rewrite ok_true, !andb_true_iff, !name_eqb_iff, String.eqb_eq.
      split; [intros [[-> ->] ->]; apply alike_table|]. intro A. inversion A; subst; auto; discriminate.
  - destruct Rb as [q Q| |r' al' l' Rr'| | | |]; try (split; [discriminate|intro A; inversion A; subst; discriminate]).
    + assert (E : rel_eq (NAliasedRel r al l) q = Err NotImplementedError) by (destruct q; try discriminate Q; reflexivity).
      rewrite E. split; [discriminate|]. intro A. inversion A; subst; discriminate.
    + cbn [rel_eq is_query is_value orb andb]. rewrite and_then_true, (IH r' Rr'), ok_true, andb_true_iff, names_eqb, String.eqb_eq.
      split; [intros [A [-> ->]]; now apply alike_aliased|]. intro A. inversion A; subst; auto; discriminate.
  - destruct Rb as [q Q| | |l' r' jt' nat' c' Rl' Rr'| | |]; try (split; [discriminate|intro A; inversion A; subst; discriminate]).
    + assert (E : rel_eq (NJoin l r jt nat c) q = Err NotImplementedError) by (destruct q; try discriminate Q; reflexivity).
      rewrite E. split; [discriminate|]. intro A. inversion A; subst; discriminate.
    + cbn [rel_eq is_query is_value orb andb].
      rewrite !and_then_true, (IHl l' Rl'), (IHr r' Rr'), ok_true, !andb_true_iff, join_eqb_iff, Bool.eqb_true_iff, crit_eqb_iff.
      split; [intros [A [B [[-> ->] C]]]; now apply alike_join|]. intro A. inversion A; subst; [discriminate|]. auto.
  - destruct Rb as [q Q| | | |vs' o'| |]; try (split; [discriminate|intro A; inversion A; subst; discriminate]).
    + assert (E : rel_eq (NUnnest vs o) q = Err NotImplementedError) by (destruct q; try discriminate Q; reflexivity).
      rewrite E. split; [discriminate|]. intro A. inversion A; subst; discriminate.
    + cbn [rel_eq is_query is_value orb andb]. rewrite ok_true, andb_true_iff, Nat.eqb_eq, Bool.eqb_true_iff.
      split; [intros [L ->]; now apply alike_unnest|]. intro A. inversion A; subst; [discriminate|]. auto.
  - destruct Rb as [q' Q'| | | | |q' Rq'|]; try (split; [discriminate|intro A; inversion A; subst; discriminate]).
    + assert (E : rel_eq (NLateral q) q' = Err NotImplementedError) by (destruct q'; try discriminate Q'; reflexivity).
      rewrite E. split; [discriminate|]. intro A. inversion A; subst; discriminate.
    + change (rel_eq (NLateral q) (NLateral q')) with (rel_eq q q'). rewrite (IH q' Rq').
      split; [now apply alike_lateral|]. intro A. inversion A; subst; [discriminate|]. assumption.
  - destruct Rb as [q Q| | | | | |r' st' p' Rr']; try (split; [discriminate|intro A; inversion A; subst; discriminate]).
    + assert (E : rel_eq (NSample r st p) q = Err NotImplementedError) by (destruct q; try discriminate Q; reflexivity).
      rewrite E. split; [discriminate|]. intro A. inversion A; subst; discriminate.
    + cbn [rel_eq is_query is_value orb andb]. rewrite and_then_true, (IH r' Rr'), ok_true, sample_eqb_iff.
      split; [intros [A ->]; now apply alike_sample|]. intro A. inversion A; subst; [discriminate|]. auto.
Qed.
Print Assumptions C69_iff.

(** Where a query meets a relation that is none, the comparison raises. *)
Theorem C69_raises : forall q r, is_query q = true -> is_value r = false ->
  rel_eq q r = Err NotImplementedError /\ rel_eq r q = Err NotImplementedError
  /\ forall a l, rel_eq (NAliasedRel q a l) (NAliasedRel r a l) = Err NotImplementedError.
Proof.
  intros q r Q V. assert (A : rel_eq q r = Err NotImplementedError) by (destruct q; try discriminate Q; destruct r; try discriminate V; reflexivity).
  assert (B : rel_eq r q = Err NotImplementedError) by (destruct q; try discriminate Q; destruct r; try discriminate V; reflexivity).
  repeat split; try assumption. intros a l. cbn [rel_eq is_query orb]. rewrite A. reflexivity.
Qed.
Print Assumptions C69_raises.

(** It is an equivalence as far as it does not raise. *)
Lemma same_condition_refl c : same_condition c c.
Proof. destruct c as [[]|]; constructor. Qed.
Theorem C69_reflexive : forall a, relation a -> rel_eq a a = Ok true.
Proof.
  intros a R. apply C69_iff; [exact R|exact R|]. induction R; [now apply alike_queries|apply alike_table|now apply alike_aliased|apply alike_join; auto using same_condition_refl|now apply alike_unnest|now apply alike_lateral|now apply alike_sample].
Qed.
Print Assumptions C69_reflexive.
Theorem C69_symmetric : forall a b, relation a -> relation b -> rel_eq a b = Ok true -> rel_eq b a = Ok true.
Proof.
  intros a b Ra Rb H. apply C69_iff in H; [|assumption..]. apply C69_iff; [assumption..|]. clear Ra Rb.
  induction H; [now apply alike_queries|apply alike_table|now apply alike_aliased|apply alike_join; auto; destruct H1; constructor|now apply alike_unnest|now apply alike_lateral|now apply alike_sample].
Qed.
Print Assumptions C69_symmetric.

(** * It is weaker than the comparison of contents ([equals], base.py 127-146) *)
Lemma alike_contents a : relation a -> forall b, relation b -> asdict a = asdict b -> alike a b.
Proof.
  induction 1 as [q Q|n s c|r al l Rr IH|l r jt nat c Rl IHl Rr IHr|vs o|q Rq IH|r st p Rr IH]; intros b Rb E.
  - destruct Rb as [q' Q'| | | | | |]; [now apply alike_queries|..]; exfalso; destruct q; try discriminate Q; cbn [asdict] in E; discriminate E.
  - destruct Rb as [q' Q'| | | | | |]; try (exfalso; cbn [asdict] in E; discriminate E).
    + exfalso. destruct q'; try discriminate Q'; cbn [asdict] in E; discriminate E.
    + cbn [asdict] in E. revert E. keys. rewrite !str_opt. intros (E1 & E2 & E3 & _). injection E1 as <-. subst. apply alike_table.
  - destruct Rb as [q' Q'| | r' al' l' Rr'| | | |]; try (exfalso; cbn [asdict] in E; discriminate E).
    + exfalso. destruct q'; try discriminate Q'; cbn [asdict] in E; discriminate E.
    + cbn [asdict] in E. revert E. keys. rewrite strl_rel. intros (E1 & E2 & E3). injection E2 as <-. subst. apply alike_aliased. auto.
  - destruct Rb as [q' Q'| | |l' r' jt' nat' c' Rl' Rr'| | |]; try (exfalso; cbn [asdict] in E; discriminate E).
    + exfalso. destruct q'; try discriminate Q'; cbn [asdict] in E; discriminate E.
    + cbn [asdict] in E. revert E. keys. rewrite join_rel, bool_rel, (opt_rel (d_crit asdict) (rel_crit (fun x y => asdict x = asdict y)) crit_some crit_rel_iff).
      intros (E1 & E2 & -> & -> & E3). apply alike_join; auto.
      destruct c as [[]|], c' as [[]|]; cbn [rel_opt rel_crit] in E3; try contradiction; [subst| |]; constructor.
  - destruct Rb as [q' Q'| | | |vs' o'| |]; try (exfalso; cbn [asdict] in E; discriminate E).
    + exfalso. destruct q'; try discriminate Q'; cbn [asdict] in E; discriminate E.
    + cbn [asdict] in E. revert E. keys. rewrite vals_rel, bool_rel. intros (E1 & ->). apply alike_unnest. clear -E1. induction E1; cbn [length]; congruence.
  - destruct Rb as [q' Q'| | | | |q' Rq'|]; try (exfalso; cbn [asdict] in E; discriminate E).
    + exfalso. destruct q'; try discriminate Q'; cbn [asdict] in E; discriminate E.
    + cbn [asdict] in E. revert E. keys. intros E. apply alike_lateral. auto.
  - destruct Rb as [q' Q'| | | | | |r' st' p' Rr']; try (exfalso; cbn [asdict] in E; discriminate E).
    + exfalso. destruct q'; try discriminate Q'; cbn [asdict] in E; discriminate E.
    + cbn [asdict] in E. revert E. keys. intros (E1 & E2 & _). assert (st = st') as <- by (destruct st, st'; reflexivity || discriminate E2).
      apply alike_sample. auto.
Qed.
Theorem C69_contents : forall a b, relation a -> relation b -> equals a b = true -> rel_eq a b = Ok true.
Proof.
  intros a b Ra Rb E. apply equals_iff in E as (_ & _ & _ & E). apply C69_iff; [assumption..|]. now apply alike_contents.
Qed.
Print Assumptions C69_contents.
Local Definition named (n : string) : node := NSelect [column n] (Some (NTable n None None)) None None None false [] (mkQ [] [] None None).
Local Definition left_of (c : node) : node := NJoin (NTable "t" None None) (NTable "u" None None) JInner false (Some (JOn c)).
Theorem C69_contents_refuted :
  ~ (forall a b, relation a -> relation b -> rel_eq a b = Ok true -> equals a b = true).
Proof.
  intro H. specialize (H (NAliasedRel (named "x") "a" []) (NAliasedRel (named "y") "a" [])).
  assert (X : equals (NAliasedRel (named "x") "a" []) (NAliasedRel (named "y") "a" []) = true).
  { apply H; [apply r_aliased, r_query; reflexivity..|reflexivity]. }
  vm_compute in X. discriminate X.
Qed.
Print Assumptions C69_contents_refuted.
Example C69_case_conditions :
  relation (left_of (NBin BEq (column "a") (column "b")))
  /\ rel_eq (left_of (NBin BEq (column "a") (column "b"))) (left_of (NUn UIsNull (column "c"))) = Ok true
  /\ equals (left_of (NBin BEq (column "a") (column "b"))) (left_of (NUn UIsNull (column "c"))) = false
  /\ rel_eq (NUnnest [column "a"] false) (NUnnest [column "b"] false) = Ok true
  /\ rel_eq (NUnnest [column "a"] false) (NUnnest [column "b"; column "c"] false) = Ok false
  /\ rel_eq (NAliasedRel (named "x") "a" []) (NAliasedRel (named "x") "b" []) = Ok false
  /\ rel_eq (NAliasedRel (named "x") "a" []) (NAliasedRel (NTable "x" None None) "a" []) = Err NotImplementedError.
Proof. split; [apply r_join; apply r_table|]. vm_compute. repeat split. Qed.
