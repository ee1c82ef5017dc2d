(** C79: what the computation of result types can raise. *)
From Coq Require Import String Ascii List ZArith Bool Arith Lia.
From Verif Require Import PyStr Types TypeFacts Conversions ConversionFacts.
Import ListNotations.
Open Scope string_scope.
Open Scope list_scope.

(** A type with a TIME or TIMESTAMP in it whose precision is not given. *)
Inductive open_time : dtype -> Prop :=
| open_time_time z : open_time (TTime None z)
| open_time_stamp z : open_time (TTimestamp None z)
| open_time_array t : open_time t -> open_time (TArray t)
| open_time_key k v : open_time k -> open_time (TMap k v)
| open_time_value k v : open_time v -> open_time (TMap k v)
| open_time_row l t : In t l -> open_time t -> open_time (TRow l).
Definition fails (P : Prop) (e : exn) : Prop := e = AssertionError \/ e = TypeError \/ (e = KeyError /\ P).
Lemma fails_mono (P Q : Prop) e : (P -> Q) -> fails P e -> fails Q e.
Proof. unfold fails. tauto. Qed.

Ltac unb H := match type of H with
  | bind ?r _ = Err _ => let E := fresh "E" in destruct r eqn:E; cbn [bind] in H; [|injection H as ->]
  end.
Lemma assert_fails P b e : py_assert b = Err e -> fails P e.
Proof. unfold py_assert. destruct b; intros [=]. now left. Qed.
Lemma decimal_fails P p s e : decimal p s = Err e -> fails P e.
Proof. unfold decimal. intro H. unb H; [discriminate H|]. now apply (assert_fails P) in E. Qed.
Lemma common_decimal_fails P a b e : common_decimal a b = Err e -> fails P e.
Proof. destruct a, b; cbn [common_decimal]; try (intros [= <-]; now left). apply decimal_fails. Qed.
Lemma common_varchar_fails P a b e : common_varchar a b = Err e -> fails P e.
Proof. destruct a as [| |[]| | | | | | | |], b as [| |[]| | | | | | | |]; cbn [common_varchar]; try discriminate; intros [= <-]; now left. Qed.
Lemma common_char_fails P a b e : common_char a b = Err e -> fails P e.
Proof. destruct a, b; cbn [common_char]; try discriminate; intros [= <-]; now left. Qed.
Lemma common_interval_fails P a b e : common_interval a b = Err e -> fails P e.
Proof. destruct a, b; cbn [common_interval]; try (intros [= <-]; now left). destruct (_ && _)%bool; discriminate. Qed.
Lemma precision_known n : mem n integral_types = true -> exists p, integral_precision n = Ok p.
Proof.
  unfold integral_precision. destruct (n =? "TINYINT") eqn:A; [eauto|]. destruct (n =? "SMALLINT") eqn:B; [eauto|].
  destruct (n =? "INTEGER") eqn:C; [eauto|]. destruct (n =? "BIGINT") eqn:D; [eauto|].
  unfold mem, integral_types. cbn [existsb]. rewrite A, B, C, D. discriminate.
Qed.
Lemma promote_fails P a e : is_in a integral_types = true -> promote_integral_to_decimal a = Err e -> fails P e.
Proof. intros I H. apply precision_known in I as [p I]. unfold promote_integral_to_decimal in H. rewrite I in H. exact (decimal_fails P _ _ _ H). Qed.
Lemma numeric_fails P a b e : common_numeric a b = Err e -> fails P e.
Proof.
  unfold common_numeric. intro H. unb H; [|exact (assert_fails P _ _ E)]. destruct (is_in a integral_types) eqn:A.
  - destruct (is_in b integral_types) eqn:B.
    + unfold common_integral in H. rewrite A, B in H. cbn [py_assert andb bind] in H.
      apply precision_known in A as [p A]. apply precision_known in B as [q B]. rewrite A, B in H. discriminate H.
    + destruct (is_in b float_types); [discriminate H|]. unb H; [|exact (assert_fails P _ _ E0)].
      unb H; [exact (common_decimal_fails P _ _ _ H)|exact (promote_fails P _ _ A E1)].
  - destruct (is_in a float_types) eqn:F.
    + destruct (is_in b float_types) eqn:B; [|discriminate H]. unfold common_float in H. rewrite F, B in H. discriminate H.
    + unb H; [|exact (assert_fails P _ _ E0)]. destruct (is_in b integral_types) eqn:B.
      * unb H; [exact (common_decimal_fails P _ _ _ H)|exact (promote_fails P _ _ B E1)].
      * destruct (is_in b float_types); [discriminate H|]. injection H as <-. right. now left.
Qed.
Lemma varchar_promoted a : is_in a string_types = true -> type_name a =? "CHAR" = false -> exists c, promote_varchar_to_char a = Ok (TChar c).
Proof. destruct a as [s| |[]| | | | | | | |]; try destruct s; try (intro H; vm_compute in H; discriminate H); cbn [promote_varchar_to_char]; eauto. intros _ H. vm_compute in H. discriminate H. Qed.
Lemma string_fails P a b e : common_string a b = Err e -> fails P e.
Proof.
  unfold common_string. intro H. unb H; [|exact (assert_fails P _ _ E)]. unfold py_assert in E. destruct (is_in a string_types && is_in b string_types)%bool eqn:I; [|discriminate E].
  apply andb_prop in I as [A B]. destruct (_ || _)%bool; [|exact (common_varchar_fails P _ _ _ H)].
  unb H; [unb H; [exact (common_char_fails P _ _ _ H)|]|].
  - destruct (type_name b =? "CHAR") eqn:C; [discriminate|]. apply varchar_promoted in B as [c B]; [congruence|exact C].
  - destruct (type_name a =? "CHAR") eqn:C; [discriminate|]. apply varchar_promoted in A as [c A]; [congruence|exact C].
Qed.
Lemma diff_fails P a b e : common_diff a b = Err e -> fails P e.
Proof.
  unfold common_diff. destruct (is_in a numeric_types); [apply numeric_fails|]. destruct (is_in a string_types); [apply string_fails|].
  destruct (is_in a hll_types). { unfold common_hll. intro H. unb H; [discriminate H|exact (assert_fails P _ _ E)]. }
  destruct (is_in a datetime_types).
  - unfold common_datetime. intro H. unb H; [|exact (assert_fails P _ _ E)]. destruct (_ || _)%bool; discriminate H.
  - intros [= <-]. right. now left.
Qed.
Lemma timelike_fails p q e : common_timelike p q = Err e -> fails (p = None \/ q = None) e.
Proof. destruct p, q; cbn [common_timelike]; intros [= <-]; [now left|right; right; auto..]. Qed.
Lemma same_fails a : (forall t, In t match a with TArray t => [t] | TMap k v => [k; v] | TRow l => l | _ => [] end ->
    forall b e, common_supertype t b = Err e -> fails (open_time t \/ open_time b) e) ->
  forall b e, common_same_type a b = Err e -> fails (open_time a \/ open_time b) e.
Proof.
  intros IH b e H. unfold common_same_type in H. unb H; [|exact (assert_fails _ _ _ E)]. clear E.
  destruct a as [s|p s|m|m|p z|p z|k|t|k v|l|t]; try (injection H as <-; now left).
  - exact (common_decimal_fails _ _ _ _ H).
  - exact (common_varchar_fails _ _ _ _ H).
  - exact (common_char_fails _ _ _ _ H).
  - destruct b; try (injection H as <-; now left). apply timelike_fails in H. eapply fails_mono; [|exact H]. intros [->| ->]; [left|right]; constructor.
  - destruct b; try (injection H as <-; now left). apply timelike_fails in H. eapply fails_mono; [|exact H]. intros [->| ->]; [left|right]; constructor.
  - exact (common_interval_fails _ _ _ _ H).
  - destruct b; try (injection H as <-; now left). unb H; [discriminate H|]. apply IH in E; [|now left].
    eapply fails_mono; [|exact E]. intros [O|O]; [left|right]; now constructor.
  - destruct b; try (injection H as <-; now left). unb H; [unb H; [discriminate H|]|].
    + apply IH in E0; [|right; now left]. eapply fails_mono; [|exact E0]. intros [O|O]; [left|right]; now apply open_time_value.
    + apply IH in E; [|now left]. eapply fails_mono; [|exact E]. intros [O|O]; [left|right]; now apply open_time_key.
  - destruct b as [| | | | | | | | |l'|]; try (injection H as <-; now left). unb H; [discriminate H|].
    assert (G : fails (Exists open_time l \/ Exists open_time l') e).
    { revert l' E. induction l as [|x l IHl]; intros [|y l'] E; try discriminate E. cbn [common_row_list] in E. unb E; [unb E; [discriminate E|]|].
      - apply IHl in E1; [|intros t I; apply IH; now right]. eapply fails_mono; [|exact E1]. intros [O|O]; [left|right]; now right.
      - apply IH in E0; [|now left]. eapply fails_mono; [|exact E0]. intros [O|O]; [left|right]; now left. }
    eapply fails_mono; [|exact G]. intros [O|O]; [left|right]; apply Exists_exists in O as (t & I & O); eapply open_time_row; eauto.
Qed.

(** * The property *)
(** Nothing but AssertionError and TypeError, and KeyError only if a TIME or TIMESTAMP
    without a precision is involved. *)
Theorem C79_supertype : forall a b e, common_supertype a b = Err e -> fails (open_time a \/ open_time b) e.
Proof.
  assert (G : forall a, (forall t, In t match a with TArray t => [t] | TMap k v => [k; v] | TRow l => l | _ => [] end ->
      forall b e, common_supertype t b = Err e -> fails (open_time t \/ open_time b) e) ->
    forall b e, common_supertype a b = Err e -> fails (open_time a \/ open_time b) e).
  { intros a IH b e H. rewrite common_supertype_eq in H. destruct (same_name a b); [|exact (diff_fails _ _ _ _ H)].
    destruct (dtype_eqb a b); [discriminate H|]. unb H; [discriminate H|]. destruct (is_in a conversion_map_keys); [|discriminate E].
    now apply same_fails. }
  induction a as [s|p s|m|m|p z|p z|k|t IH|k v IHk IHv|l IH|t IH] using dtype_ind'; apply G; cbn [In]; try tauto.
  - intros u [<-|[]]. exact IH.
  - intros u [<-|[<-|[]]]; assumption.
  - rewrite Forall_forall in IH. exact IH.
Qed.
Print Assumptions C79_supertype.
Theorem C79_arithmetic : forall a b e, get_arithmetic_type a b = Err e -> fails (open_time a \/ open_time b) e.
Proof.
  intros a b e H. unfold get_arithmetic_type in H. destruct (dtype_eqb a b); [discriminate H|]. destruct (same_name a b).
  - refine (same_fails a _ b e H). intros t _. apply C79_supertype.
  - destruct (_ && _)%bool; [exact (numeric_fails _ _ _ _ H)|discriminate H].
Qed.
Print Assumptions C79_arithmetic.
(** The types of VALUES, set operations, COALESCE, IF and CONCAT: the same three, and
    the branch that the model leaves open (a VARCHAR is expected) is never taken. *)
Definition three (e : exn) : Prop := In e [AssertionError; TypeError; KeyError].
Lemma fails_three P e : fails P e -> three e.
Proof. unfold fails, three. cbn [In]. intuition auto. Qed.
Lemma row_list_fails l : forall l' e, common_row_list l l' = Err e -> three e.
Proof.
  induction l as [|x l IH]; intros [|y l'] e H; try discriminate H. cbn [common_row_list] in H. unb H; [unb H; [discriminate H|exact (IH _ _ E0)]|].
  exact (fails_three _ _ (C79_supertype _ _ _ E)).
Qed.
Lemma reduce_fails l : forall a e, reduce_from a l = Err e -> three e.
Proof.
  induction l as [|x l IH]; intros a e H; [discriminate H|]. cbn [reduce_from] in H. unb H; [exact (IH _ _ H)|exact (fails_three _ _ (C79_supertype _ _ _ E))].
Qed.
Lemma supertypes_fails l e : reduce_supertype l = Err e -> three e.
Proof. destruct l; cbn [reduce_supertype]; [intros [= <-]; right; now left|apply reduce_fails]. Qed.
Theorem C79_values : forall l e, values_type l = Err e -> three e.
Proof.
  unfold values_type. intro l. generalize unknown. induction l as [|x l IH]; intros a e H; [discriminate H|]. cbn [values_fold] in H.
  unb H; [exact (IH _ _ H)|]. destruct (is_unknown a); [discriminate E|exact (fails_three _ _ (C79_supertype _ _ _ E))].
Qed.
Print Assumptions C79_values.
Theorem C79_set : forall a b e, set_type a b = Err e -> three e.
Proof.
  intros a b e H. unfold set_type in H. destruct (_ || _)%bool; [discriminate H|].
  destruct a, b; try exact (fails_three _ _ (C79_supertype _ _ _ H)); try (injection H as <-; now left).
  unb H; [discriminate H|exact (row_list_fails _ _ _ E)].
Qed.
Print Assumptions C79_set.
Theorem C79_conditional : forall l t f e, coalesce_type l = Err e \/ if_type t f = Err e -> three e.
Proof.
  intros l t f e [H|H]; [exact (supertypes_fails _ _ H)|]. destruct f; cbn [if_type] in H; [|discriminate H]. exact (fails_three _ _ (C79_supertype _ _ _ H)).
Qed.
Print Assumptions C79_conditional.
Theorem C79_concat : forall l e, concat_type l = Err e -> three e.
Proof.
  intros l e H. unfold concat_type in H. destruct (existsb _ l); [discriminate H|]. destruct (existsb _ l).
  { unfold array_concat_type in H. unb H; [|exact (fails_three True _ (assert_fails _ _ _ E))]. unb H; [discriminate H|exact (supertypes_fails _ _ E0)]. }
  destruct (forallb (fun t => is_in t string_types) l) eqn:A; [|destruct (forallb (fun t => type_name t =? "VARBINARY") l); discriminate H].
  unfold string_concat_type in H. destruct (existsb _ l); [|discriminate H]. exfalso. revert H. generalize 0%Z.
  induction l as [|x l IH]; intros m H; [discriminate H|]. cbn [forallb] in A. apply andb_prop in A as [A B]. unb H.
  - destruct a; try (destruct (type_name x =? "CHAR") eqn:C; [injection E as ->; repeat match goal with s : simple |- _ => destruct s end; vm_compute in C; discriminate C|destruct (varchar_promoted x A C) as [c P]; congruence]).
    exact (IH B _ H).
  - destruct (type_name x =? "CHAR") eqn:C; [discriminate E|]. destruct (varchar_promoted x A C) as [c P]. congruence.
Qed.
Print Assumptions C79_concat.
(** All three are raised. *)
Example C79_case :
  map (fun ab => common_supertype (fst ab) (snd ab))
    [(TSimple SDate, TSimple SInteger); (TSimple SBoolean, TSimple SInteger); (TArray (TTime None false), TArray (TTime (Some 3%Z) false))]
  = [Err AssertionError; Err TypeError; Err KeyError]
  /\ open_time (TArray (TTime None false)).
Proof. split; [vm_compute; reflexivity|]. repeat constructor. Qed.
Example C79_case_others :
  values_type [TSimple SDate; TSimple SInteger] = Err AssertionError
  /\ set_type (TRow [TSimple SBoolean]) (TRow [TSimple SInteger]) = Err TypeError
  /\ coalesce_type [] = Err TypeError
  /\ if_type (TTime None true) (Some (TTime None false)) = Err KeyError
  /\ concat_type [TArray (TArray (TSimple SDate)); TSimple SDate] = Err AssertionError
  /\ get_arithmetic_type (TTime None true) (TTime None false) = Err KeyError.
Proof. vm_compute. repeat split. Qed.
