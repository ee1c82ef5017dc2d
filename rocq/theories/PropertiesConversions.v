(** Property theorems C05 - C07, C34, C36: type coercion. *)
From Coq Require Import String Ascii List ZArith Bool QArith Sorting.Permutation.
From Verif Require Import PyStr Types Conversions ConversionFacts.
Import ListNotations.
Open Scope string_scope.
Open Scope Z_scope.

(** C05.  [agree]: same result, or both raise. *)
Theorem C05_arithmetic_symmetric : forall a b,
  agree (get_arithmetic_type a b) (get_arithmetic_type b a).
Proof. exact arithmetic_sym. Qed.
Print Assumptions C05_arithmetic_symmetric.
Theorem C05_arithmetic_idempotent : forall a, get_arithmetic_type a a = Ok a.
Proof. exact arithmetic_same. Qed.
Print Assumptions C05_arithmetic_idempotent.
Example C05_case :
  get_arithmetic_type (TSimple SInteger) (TDecimal 5 2) = Ok (TDecimal 12 2)
  /\ get_arithmetic_type (TDecimal 5 2) (TSimple SInteger) = Ok (TDecimal 12 2)
  /\ get_arithmetic_type (TSimple SDouble) (TSimple SDate) = Ok unknown
  /\ get_arithmetic_type (TDecimal 38 0) (TDecimal 3 2) = Err AssertionError.
Proof. vm_compute; repeat split. Qed.

(** C06.  [holds t q]: the number [q] is a value of the exact numeric type [t]. *)
Theorem C06_result_holds_operands : forall a b c q,
  exact_numeric a = true -> exact_numeric b = true ->
  get_arithmetic_type a b = Ok c -> holds a q \/ holds b q -> holds c q.
Proof. exact arithmetic_holds. Qed.
Print Assumptions C06_result_holds_operands.
(** It is the least such decimal type: any decimal type that holds the values of
    both operands has at least as many fractional and integer digits. *)
Theorem C06_result_least : forall p1 s1 p2 s2 p s P S,
  exact_numeric (TDecimal p1 s1) = true -> exact_numeric (TDecimal p2 s2) = true ->
  1 <= p1 -> 1 <= p2 -> 0 <= P -> 0 <= S ->
  get_arithmetic_type (TDecimal p1 s1) (TDecimal p2 s2) = Ok (TDecimal p s) ->
  (forall q, holds (TDecimal p1 s1) q \/ holds (TDecimal p2 s2) q -> holds (TDecimal P S) q) ->
  s <= S /\ p - s <= P - S.
Proof. exact arithmetic_least. Qed.
Print Assumptions C06_result_least.
(** It raises exactly when more than 38 digits would be needed. *)
Theorem C06_decimal_raises_iff : forall p1 s1 p2 s2,
  exact_numeric (TDecimal p1 s1) = true -> exact_numeric (TDecimal p2 s2) = true ->
  TDecimal p1 s1 <> TDecimal p2 s2 ->
  get_arithmetic_type (TDecimal p1 s1) (TDecimal p2 s2)
  = if Z.max (p1 - s1) (p2 - s2) + Z.max s1 s2 <=? 38
    then Ok (TDecimal (Z.max (p1 - s1) (p2 - s2) + Z.max s1 s2) (Z.max s1 s2))
    else Err AssertionError.
Proof. exact arithmetic_decimal_total. Qed.
Print Assumptions C06_decimal_raises_iff.
Example C06_case :
  get_arithmetic_type (TDecimal 5 3) (TSimple SSmallint) = Ok (TDecimal 8 3)
  /\ holds (TDecimal 5 3) (12345 # 1000) /\ holds (TSimple SSmallint) (- 32768 # 1).
Proof.
  split; [vm_compute; reflexivity|]. split.
  - exists 12345. split; vm_compute; reflexivity.
  - exists 16, (- 32768). repeat split; vm_compute; congruence.
Qed.

(** C07. *)
Theorem C07_supertype_symmetric : forall a b,
  agree (common_supertype a b) (common_supertype b a).
Proof. exact common_supertype_sym. Qed.
Print Assumptions C07_supertype_symmetric.
Theorem C07_supertype_idempotent : forall a, common_supertype a a = Ok a.
Proof. exact common_supertype_same. Qed.
Print Assumptions C07_supertype_idempotent.
Example C07_case :
  common_supertype (TVarchar (Some 7)) (TChar 3) = Ok (TChar 7)
  /\ common_supertype (TSimple SDate) (TTimestamp (Some 3) false) = Ok (TTimestamp (Some 3) false)
  /\ common_supertype (TSimple SDate) (TSimple SInteger) = Err AssertionError
  /\ common_supertype (TMap (TSimple SDate) (TSimple SReal)) (TMap (TSimple SDate) (TTime None false)) = Err AssertionError.
Proof. vm_compute; repeat split. Qed.

(** C34.  [ranked]: all rows have an integer or floating type; [widest l t]: [t]
    occurs in [l] and no type of [l] is wider. *)
Theorem C34_values_widest : forall l,
  l <> [] -> ranked l -> exists t, values_type l = Ok t /\ widest l t.
Proof. exact values_widest. Qed.
Print Assumptions C34_values_widest.
Theorem C34_values_row_order : forall l l',
  l <> [] -> ranked l -> Permutation l l' -> values_type l = values_type l'.
Proof. exact values_perm. Qed.
Print Assumptions C34_values_row_order.
Theorem C34_values_uniform : forall t l,
  (forall x, In x l -> x = t) -> l <> [] -> values_type l = Ok t.
Proof. exact values_same. Qed.
Print Assumptions C34_values_uniform.
Theorem C34_coalesce_widest : forall l,
  (forall x, In x l -> x = unknown \/ exists n, rank x = Some n) ->
  (exists x, In x l /\ x <> unknown) ->
  exists t, coalesce_type l = Ok t /\ widest (filter (fun t => negb (is_unknown t)) l) t.
Proof. exact coalesce_widest. Qed.
Print Assumptions C34_coalesce_widest.
Example C34_case :
  values_type [TSimple SInteger; TSimple STinyint; TSimple SReal] = Ok (TSimple SReal)
  /\ coalesce_type [unknown; TSimple STinyint; unknown; TSimple SBigint] = Ok (TSimple SBigint).
Proof. vm_compute; repeat split. Qed.

(** In general the row order matters: VALUES NULL, 1 has a type but VALUES 1, NULL
    raises; and three strings get the length of the last one. *)
Theorem C34_order_refuted :
  (exists l l' t e, Permutation l l' /\ values_type l = Ok t /\ values_type l' = Err e)
  /\ (exists l l' t t', Permutation l l' /\ values_type l = Ok t /\ values_type l' = Ok t' /\ t <> t').
Proof.
  split.
  - exists [unknown; integer], [integer; unknown]. do 2 eexists. split; [apply perm_swap|].
    split; vm_compute; reflexivity.
  - exists [TVarchar (Some 1); TVarchar (Some 2); TVarchar (Some 1)],
           [TVarchar (Some 1); TVarchar (Some 1); TVarchar (Some 2)].
    do 2 eexists. split; [apply perm_skip, perm_swap|].
    split; [vm_compute; reflexivity|]. split; [vm_compute; reflexivity|]. discriminate.
Qed.
Print Assumptions C34_order_refuted.
Theorem C34_coalesce_nulls_refuted : coalesce_type [unknown; unknown] = Err TypeError.
Proof. vm_compute; reflexivity. Qed.
Print Assumptions C34_coalesce_nulls_refuted.

(** C36.  The common supertype should hold the values of both types.  It does for
    exact numeric types of different names; for two DECIMAL types of different
    parameters the result is UNKNOWN, and an unbounded VARCHAR with CHAR(n)
    becomes CHAR(n). *)
Theorem C36_supertype_holds_operands : forall a b c q,
  exact_numeric a = true -> exact_numeric b = true -> type_name a <> type_name b ->
  common_supertype a b = Ok c -> holds a q \/ holds b q -> holds c q.
Proof. exact supertype_holds. Qed.
Print Assumptions C36_supertype_holds_operands.
Theorem C36_string_supertype_length : forall n m c,
  0 <= n <= 65536 -> common_supertype (TVarchar (Some n)) (TChar m) = Ok c ->
  exists k, c = TChar k /\ n <= k /\ m <= k.
Proof. exact supertype_string. Qed.
Print Assumptions C36_string_supertype_length.
Theorem C36_same_name_refuted :
  common_supertype (TDecimal 5 2) (TDecimal 7 1) = Ok unknown
  /\ get_arithmetic_type (TDecimal 5 2) (TDecimal 7 1) = Ok (TDecimal 8 2)
  /\ common_supertype (TVarchar None) (TChar 3) = Ok (TChar 3).
Proof. vm_compute; repeat split. Qed.
Print Assumptions C36_same_name_refuted.
