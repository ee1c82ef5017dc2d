(** Property theorems C39 - C43 and additions to C36: the types of date/time and
    string expressions, subtraction, IF, CONCAT and set operations. *)
From Coq Require Import String Ascii List ZArith Bool Lia.
From Verif Require Import PyStr Types TypeFacts Conversions ConversionFacts Ast.
Import ListNotations.
Open Scope string_scope.
Open Scope Z_scope.
Open Scope list_scope.

(** C36, continued: the exact lengths of strings. *)
Theorem C36_string_supertype_exact : forall n m,
  common_supertype (TVarchar (Some n)) (TChar m) = Ok (TChar (Z.max (Z.min 65536 n) m))
  /\ common_supertype (TChar m) (TVarchar (Some n)) = Ok (TChar (Z.max m (Z.min 65536 n))).
Proof. intros n m. split; reflexivity. Qed.
Print Assumptions C36_string_supertype_exact.
(** The result type of arithmetic on two VARCHARs, or two CHARs, is as long as
    the longer one, and unbounded when one of them is. *)
Theorem C36_varchar_arithmetic : forall n m,
  get_arithmetic_type (TVarchar (Some n)) (TVarchar (Some m)) = Ok (TVarchar (Some (Z.max n m)))
  /\ get_arithmetic_type (TChar n) (TChar m) = Ok (TChar (Z.max n m))
  /\ get_arithmetic_type (TVarchar (Some n)) (TVarchar None) = Ok (TVarchar None)
  /\ get_arithmetic_type (TVarchar None) (TVarchar (Some n)) = Ok (TVarchar None).
Proof.
  intros n m. unfold get_arithmetic_type.
  assert (Z0 : forall x y : dtype, dtype_eqb x y = true -> x = y) by (intros x y; apply dtype_eqb_eq).
  split; [|split; [|split]].
  - destruct (dtype_eqb _ _) eqn:D; [|reflexivity].
    apply Z0 in D. injection D as ->. now rewrite Z.max_id.
  - destruct (dtype_eqb _ _) eqn:D; [|reflexivity].
    apply Z0 in D. injection D as ->. now rewrite Z.max_id.
  - reflexivity.
  - reflexivity.
Qed.
Print Assumptions C36_varchar_arithmetic.
(** Two different types of one name never have a useful supertype: the computed
    type is dropped (conversions.py 79-81), whatever the types. *)
Theorem C36_same_name_unknown : forall a b c,
  type_name a = type_name b -> a <> b -> common_supertype a b = Ok c -> c = unknown.
Proof.
  intros a b c N D E. rewrite common_supertype_eq in E.
  assert (S : same_name a b = true) by (apply String.eqb_eq; exact N). rewrite S in E.
  apply dtype_eqb_neq in D. rewrite D in E.
  destruct (is_in a conversion_map_keys).
  - destruct (common_same_type a b); cbn [bind] in E; [injection E as <-; reflexivity | discriminate E].
  - injection E as <-. reflexivity.
Qed.
Print Assumptions C36_same_name_unknown.
Example C36_more_case :
  common_supertype (TChar 9) (TVarchar (Some 100000)) = Ok (TChar 65536)
  /\ get_arithmetic_type (TVarchar (Some 3)) (TVarchar (Some 5)) = Ok (TVarchar (Some 5))
  /\ common_supertype (TArray (TSimple SInteger)) (TArray (TSimple SBigint)) = Ok unknown.
Proof. vm_compute; repeat split. Qed.

(** C39.  Date and time types. *)
Inductive date_or_time : dtype -> Prop :=
| is_date : date_or_time (TSimple SDate)
| is_time p z : date_or_time (TTime p z).
Theorem C39_timestamp_wins : forall x p z,
  date_or_time x ->
  common_supertype x (TTimestamp p z) = Ok (TTimestamp p z)
  /\ common_supertype (TTimestamp p z) x = Ok (TTimestamp p z).
Proof. intros x p z [|q w]; split; reflexivity. Qed.
Print Assumptions C39_timestamp_wins.
Theorem C39_date_with_time : forall p z,
  common_supertype (TSimple SDate) (TTime p z) = Ok unknown
  /\ common_supertype (TTime p z) (TSimple SDate) = Ok unknown.
Proof. intros p z; split; reflexivity. Qed.
Print Assumptions C39_date_with_time.
(** Two TIMESTAMPs, or two TIMEs, that differ in precision or time zone have no
    common type at all: it raises, and so does arithmetic on them. *)
Theorem C39_same_kind_raises : forall p z q w,
  (p, z) <> (q, w) ->
  (exists e, common_supertype (TTimestamp p z) (TTimestamp q w) = Err e)
  /\ (exists e, common_supertype (TTime p z) (TTime q w) = Err e)
  /\ (exists e, get_arithmetic_type (TTimestamp p z) (TTimestamp q w) = Err e)
  /\ (exists e, get_arithmetic_type (TTime p z) (TTime q w) = Err e).
Proof.
  intros p z q w N.
  assert (D1 : dtype_eqb (TTimestamp p z) (TTimestamp q w) = false)
    by (apply dtype_eqb_neq; congruence).
  assert (D2 : dtype_eqb (TTime p z) (TTime q w) = false)
    by (apply dtype_eqb_neq; congruence).
  rewrite !common_supertype_eq. unfold get_arithmetic_type. rewrite D1, D2.
  change (same_name (TTimestamp p z) (TTimestamp q w)) with true.
  change (same_name (TTime p z) (TTime q w)) with true.
  split; [|split; [|split]]; destruct p, q; eexists; reflexivity.
Qed.
Print Assumptions C39_same_kind_raises.
Theorem C39_sketches :
  common_supertype (TSimple SHll) (TSimple SP4hll) = Ok (TSimple SHll)
  /\ common_supertype (TSimple SP4hll) (TSimple SHll) = Ok (TSimple SHll).
Proof. split; reflexivity. Qed.
Print Assumptions C39_sketches.
Example C39_case :
  common_supertype (TTime (Some 3) true) (TTimestamp (Some 6) false) = Ok (TTimestamp (Some 6) false)
  /\ common_supertype (TTimestamp (Some 3) true) (TTimestamp (Some 3) false) = Err AssertionError.
Proof. vm_compute; split; reflexivity. Qed.

(** C40.  Subtraction: the difference of two dates or timestamps is a day-to-second
    interval, and so is that of two times of the same type. *)
Inductive point_in_time : dtype -> Prop :=
| point_date : point_in_time (TSimple SDate)
| point_timestamp p z : point_in_time (TTimestamp p z).
Theorem C40_difference_of_dates : forall a b,
  point_in_time a -> point_in_time b -> type_name a <> type_name b \/ a = b ->
  binop_type BMinus a b = Ok (TInterval DayToSecond).
Proof.
  intros a b A B D. cbn [binop_type]. unfold minus_type. destruct D as [D | ->].
  - destruct A, B; cbn in D; try congruence; reflexivity.
  - rewrite arithmetic_same. destruct B; reflexivity.
Qed.
Print Assumptions C40_difference_of_dates.
Theorem C40_difference_of_times : forall p z,
  binop_type BMinus (TTime p z) (TTime p z) = Ok (TInterval DayToSecond).
Proof. intros p z. cbn [binop_type]. unfold minus_type. rewrite arithmetic_same. reflexivity. Qed.
Print Assumptions C40_difference_of_times.
(** All other differences have the type of the sum. *)
Theorem C40_otherwise_like_sum : forall a b,
  ~ (point_in_time a /\ point_in_time b) ->
  ~ (exists p z q w, a = TTime p z /\ b = TTime q w) ->
  binop_type BMinus a b = binop_type BAdd a b.
Proof.
  intros a b N1 N2. cbn [binop_type]. unfold minus_type.
  destruct (get_arithmetic_type a b) as [t|]; cbn [bind]; [|reflexivity].
  destruct a as [[]| | | | |p z| | | | | ]; cbn; try reflexivity;
  destruct b as [[]| | | | |q w| | | | | ]; cbn; try reflexivity;
  exfalso; first [apply N1; split; constructor | apply N2; repeat eexists].
Qed.
Print Assumptions C40_otherwise_like_sum.
(** Timestamps that differ in precision cannot be subtracted: the type of the sum
    is computed first and raises (expression.py 537-539). *)
Theorem C40_precision_refuted :
  binop_type BMinus (TTimestamp (Some 3) false) (TTimestamp (Some 6) false) = Err AssertionError
  /\ binop_type BMinus (TTimestamp (Some 3) false) (TTimestamp None false) = Err KeyError.
Proof. vm_compute; split; reflexivity. Qed.
Print Assumptions C40_precision_refuted.
Example C40_case :
  binop_type BMinus (TSimple SDate) (TTimestamp (Some 3) true) = Ok (TInterval DayToSecond)
  /\ binop_type BMinus (TSimple SBigint) (TDecimal 5 2) = Ok (TDecimal 21 2).
Proof. vm_compute; split; reflexivity. Qed.

(** C41.  IF has the wider of the types of its branches, in either order, and the
    type of its only branch when there is no second one. *)
Theorem C41_if_widest : forall t f,
  ranked [t; f] -> exists c, if_type t (Some f) = Ok c /\ widest [t; f] c.
Proof.
  intros t f R. destruct (reduce_from_widest [f] t R) as (c & E & W). exists c.
  split; [|exact W]. cbn [if_type]. cbn [reduce_from] in E.
  destruct (common_supertype t f); cbn [bind] in E; [exact E | discriminate E].
Qed.
Print Assumptions C41_if_widest.
Theorem C41_if_single : forall t, if_type t None = Ok t.
Proof. reflexivity. Qed.
Print Assumptions C41_if_single.
Theorem C41_if_same : forall t, if_type t (Some t) = Ok t.
Proof. intro t. apply common_supertype_same. Qed.
Print Assumptions C41_if_same.
(** A NULL branch does not fit: IF(c, 1, NULL) and IF(c, NULL, 1) raise. *)
Theorem C41_null_branch_refuted : forall t n,
  rank t = Some n ->
  if_type t (Some unknown) = Err AssertionError /\ if_type unknown (Some t) = Err TypeError.
Proof.
  intros t n R. destruct t as [[]| | | | | | | | | |]; try discriminate R; split; reflexivity.
Qed.
Print Assumptions C41_null_branch_refuted.
Example C41_case :
  if_type (TSimple SBigint) (Some (TSimple SReal)) = Ok (TSimple SReal)
  /\ if_type (TSimple SReal) (Some (TSimple SBigint)) = Ok (TSimple SReal)
  /\ if_type (TSimple SInteger) (Some unknown) = Err AssertionError.
Proof. vm_compute; repeat split. Qed.

(** C42.  CONCAT. *)
(** The number of characters a string type contributes (a VARCHAR without length
    counts 1: conversions.py 183-188). *)
Inductive text_length : dtype -> Z -> Prop :=
| length_char n : text_length (TChar n) n
| length_varchar n : text_length (TVarchar (Some n)) (Z.min 65536 n)
| length_unbounded : text_length (TVarchar None) 1.
Definition is_char (t : dtype) : Prop := exists n, t = TChar n.
Fixpoint total (l : list Z) : Z := match l with [] => 0 | n :: l' => n + total l' end.

(** The loop of functions/common.py 64-70, as it occurs in [string_concat_type]. *)
Fixpoint char_sum (m : Z) (l : list dtype) : result dtype :=
  match l with
  | [] => Ok (TChar m)
  | t :: l' =>
      let* t := if String.eqb (type_name t) "CHAR" then Ok t else promote_varchar_to_char t in
      match t with
      | TChar c => char_sum (m + c) l'
      | _ => Err KeyError
      end
  end.
Lemma char_sum_total ts ns : Forall2 text_length ts ns -> forall m, char_sum m ts = Ok (TChar (m + total ns)).
Proof.
  induction 1 as [|t n ts ns L F IH]; intro m; cbn [char_sum total].
  - now rewrite Z.add_0_r.
  - destruct L as [n|n|].
    + change (char_sum (m + n) ts = Ok (TChar (m + (n + total ns)))). rewrite IH. do 2 f_equal. lia.
    + change (char_sum (m + Z.min 65536 n) ts = Ok (TChar (m + (Z.min 65536 n + total ns)))).
      rewrite IH. do 2 f_equal. lia.
    + change (char_sum (m + 1) ts = Ok (TChar (m + (1 + total ns)))). rewrite IH. do 2 f_equal. lia.
Qed.
Lemma text_names ts ns : Forall2 text_length ts ns ->
  existsb (fun t => String.eqb (type_name t) "UNKNOWN") ts = false
  /\ existsb (fun t => String.eqb (type_name t) "ARRAY") ts = false
  /\ forallb (fun t => is_in t string_types) ts = true.
Proof.
  induction 1 as [|t n ts ns L F (A & B & C)]; [repeat split|]. cbn [existsb forallb].
  rewrite A, B, C. destruct L; repeat split.
Qed.
Lemma has_char ts ns : Forall2 text_length ts ns ->
  (exists t, In t ts /\ is_char t) ->
  existsb (fun t => String.eqb (type_name t) "CHAR") ts = true.
Proof.
  intros F (t & I & n & ->). apply existsb_exists. exists (TChar n). split; [exact I|reflexivity].
Qed.

Theorem C42_char_length : forall ts ns,
  Forall2 text_length ts ns -> (exists t, In t ts /\ is_char t) ->
  concat_type ts = Ok (TChar (total ns)).
Proof.
  intros ts ns F H. unfold concat_type. destruct (text_names _ _ F) as (A & B & C).
  rewrite A, B, C. unfold string_concat_type. rewrite (has_char _ _ F H).
  exact (char_sum_total _ _ F 0).
Qed.
Print Assumptions C42_char_length.
Theorem C42_varchar : forall ts ns,
  Forall2 text_length ts ns -> (forall t, In t ts -> ~ is_char t) ->
  concat_type ts = Ok (TVarchar None).
Proof.
  intros ts ns F H. unfold concat_type. destruct (text_names _ _ F) as (A & B & C).
  rewrite A, B, C. unfold string_concat_type.
  destruct (existsb (fun t => String.eqb (type_name t) "CHAR") ts) eqn:E; [|reflexivity].
  apply existsb_exists in E as (t & I & N). exfalso. apply (H t I).
  destruct t as [[]| | | | | | | | | |]; cbn in N; try discriminate N. eexists; reflexivity.
Qed.
Print Assumptions C42_varchar.
Theorem C42_unknown : forall ts, In unknown ts -> concat_type ts = Ok unknown.
Proof.
  intros ts I. unfold concat_type.
  assert (E : existsb (fun t => String.eqb (type_name t) "UNKNOWN") ts = true)
    by (apply existsb_exists; exists unknown; split; [exact I|reflexivity]).
  now rewrite E.
Qed.
Print Assumptions C42_unknown.
Theorem C42_varbinary : forall ts,
  ts <> [] -> (forall t, In t ts -> t = TSimple SVarbinary) -> concat_type ts = Ok (TSimple SVarbinary).
Proof.
  intros ts N H. unfold concat_type.
  assert (E : forall n, n <> "VARBINARY" -> existsb (fun t => String.eqb (type_name t) n) ts = false).
  { intros n D. apply not_true_iff_false. intro E. apply existsb_exists in E as (t & I & X).
    rewrite (H t I) in X. apply String.eqb_eq in X. cbn in X. congruence. }
  rewrite (E "UNKNOWN"), (E "ARRAY") by discriminate.
  destruct ts as [|t ts]; [congruence|].
  assert (F : forallb (fun t => is_in t string_types) (t :: ts) = false)
    by (cbn [forallb]; rewrite (H t (or_introl eq_refl)); reflexivity).
  rewrite F.
  assert (G : forallb (fun t => String.eqb (type_name t) "VARBINARY") (t :: ts) = true)
    by (apply forallb_forall; intros x I; rewrite (H x I); reflexivity).
  now rewrite G.
Qed.
Print Assumptions C42_varbinary.

(** Arrays and single elements: [true] marks an array of the type, [false] one
    element of the type. *)
Definition operand (p : bool * dtype) : dtype := if fst p then TArray (snd p) else snd p.
Lemma ranked_layers t n : rank t = Some n -> array_layers t = 0%nat.
Proof. destruct t as [[]| | | | | | | | | |]; try discriminate; reflexivity. Qed.
Lemma ranked_not t n s : rank t = Some n -> mem s ["UNKNOWN"; "ARRAY"] = true ->
  String.eqb (type_name t) s = false.
Proof.
  intros R S. apply String.eqb_neq. intro E. subst s.
  destruct t as [[]| | | | | | | | | |]; try discriminate R; discriminate S.
Qed.
Lemma operand_layers p : (exists n, rank (snd p) = Some n) ->
  array_layers (operand p) = if fst p then 1%nat else 0%nat.
Proof.
  intros [n R]. destruct p as [[] t]; cbn [operand fst snd array_layers] in *.
  - now rewrite (ranked_layers t n R).
  - exact (ranked_layers t n R).
Qed.
Definition rk (ps : list (bool * dtype)) := forall p, In p ps -> exists n, rank (snd p) = Some n.
Lemma layers_list ps : rk ps ->
  map array_layers (map operand ps) = map (fun p : bool * dtype => if fst p then 1%nat else 0%nat) ps.
Proof.
  intro R. rewrite map_map. apply map_ext_in. intros p I. apply operand_layers, R, I.
Qed.
Lemma max_bit (ps : list (bool * dtype)) : (exists p, In p ps /\ fst p = true) ->
  fold_right Nat.max 0%nat (map (fun p : bool * dtype => if fst p then 1%nat else 0%nat) ps) = 1%nat.
Proof.
  assert (L : forall qs : list (bool * dtype),
    (fold_right Nat.max 0 (map (fun p : bool * dtype => if fst p then 1 else 0) qs) <= 1)%nat)
    by (induction qs as [|q qs IH]; cbn [map fold_right]; [lia | destruct (fst q); lia]).
  induction ps as [|q ps IH]; intros (p & I & E); [destruct I|]. cbn [map fold_right].
  specialize (L ps). destruct I as [->|I]; [rewrite E; lia|].
  rewrite IH by (exists p; split; [exact I|exact E]). destruct (fst q); lia.
Qed.

Theorem C42_arrays_widest : forall ps,
  (exists p, In p ps /\ fst p = true) -> ranked (map snd ps) ->
  exists t, concat_type (map operand ps) = Ok (TArray t) /\ widest (map snd ps) t.
Proof.
  intros ps H R0.
  assert (R : rk ps) by (intros p I; apply R0, in_map, I).
  assert (U : existsb (fun t => String.eqb (type_name t) "UNKNOWN") (map operand ps) = false).
  { apply not_true_iff_false. intro E. apply existsb_exists in E as (t & I & X).
    apply in_map_iff in I as (p & <- & I). destruct (R p I) as [n Rn].
    destruct p as [[] t]; cbn [operand fst snd] in *; [discriminate X|].
    rewrite (ranked_not t n "UNKNOWN" Rn eq_refl) in X. discriminate X. }
  assert (A : existsb (fun t => String.eqb (type_name t) "ARRAY") (map operand ps) = true).
  { destruct H as (p & I & E). apply existsb_exists. exists (operand p). split; [apply in_map, I|].
    unfold operand. rewrite E. reflexivity. }
  unfold concat_type. rewrite U, A. unfold array_concat_type.
  rewrite (layers_list ps R), (max_bit ps H). cbv zeta.
  match goal with |- context [py_assert ?b] => assert (B : b = true) by (apply Nat.leb_le; lia); rewrite B end.
  cbn [py_assert bind].
  match goal with |- context [map ?f (map operand ps)] =>
    assert (S : map f (map operand ps) = map snd ps) end.
  { rewrite map_map. apply map_ext_in. intros p I. destruct (R p I) as [n Rn].
    destruct p as [[] t]; cbn [operand fst snd] in *.
    - cbn [array_layers]. rewrite (ranked_layers t n Rn). reflexivity.
    - destruct t as [[]| | | | | | | | | |]; try discriminate Rn; reflexivity. }
  rewrite S. destruct ps as [|p ps]; [destruct H as (? & [] & _)|].
  cbn [map reduce_supertype] in *. destruct (reduce_from_widest _ _ R0) as (t & E & W).
  exists t. rewrite E. cbn [bind]. split; [reflexivity | exact W].
Qed.
Print Assumptions C42_arrays_widest.

Lemma max_same n k : fold_right Nat.max 0%nat (repeat n (S k)) = n.
Proof. induction k as [|k IH]; [cbn; lia|]. cbn [repeat fold_right] in *. lia. Qed.
(** Arrays of one type, at any nesting depth. *)
Theorem C42_same_arrays : forall t k, concat_type (repeat (TArray t) (S k)) = Ok (TArray t).
Proof.
  intros t k. unfold concat_type.
  assert (U : existsb (fun t => String.eqb (type_name t) "UNKNOWN") (repeat (TArray t) (S k)) = false).
  { apply not_true_iff_false. intro E. apply existsb_exists in E as (x & I & X).
    apply repeat_spec in I. subst x. discriminate X. }
  rewrite U. cbn [repeat existsb]. change (String.eqb (type_name (TArray t)) "ARRAY") with true. cbn [orb].
  change (TArray t :: repeat (TArray t) k) with (repeat (TArray t) (S k)).
  unfold array_concat_type. cbv zeta.
  assert (M : forall A B (f : A -> B) x n, map f (repeat x n) = repeat (f x) n)
    by (intros A B f x n; induction n as [|n IH]; cbn; [reflexivity | now rewrite IH]).
  rewrite M, max_same.
  match goal with |- context [py_assert ?b] => assert (B : b = true) end.
  { apply Nat.leb_le. generalize (S k). intro n. induction n as [|n IH]; cbn [repeat fold_right]; lia. }
  rewrite B. cbn [py_assert bind]. rewrite M, Nat.eqb_refl.
  cbn [repeat reduce_supertype].
  assert (F : forall n, reduce_from t (repeat t n) = Ok t).
  { induction n as [|n IH]; cbn [repeat reduce_from]; [reflexivity|].
    rewrite common_supertype_same. exact IH. }
  rewrite F. reflexivity.
Qed.
Print Assumptions C42_same_arrays.
(** What nesting depths differ by more than one raises; an array appended to an
    array of arrays is accepted, and then loses its element type when it differs. *)
Theorem C42_nesting_refuted :
  concat_type [TArray (TArray (TSimple SInteger)); TSimple SInteger] = Err AssertionError
  /\ concat_type [TArray (TArray (TSimple SInteger)); TArray (TSimple SBigint)] = Ok (TArray unknown).
Proof. vm_compute; split; reflexivity. Qed.
Print Assumptions C42_nesting_refuted.
Example C42_case :
  concat_type [TChar 2; TVarchar (Some 7); TVarchar None] = Ok (TChar 10)
  /\ concat_type (map operand [(false, TSimple SBigint); (true, TSimple SInteger); (true, TSimple SReal)])
     = Ok (TArray (TSimple SReal))
  /\ Forall2 text_length [TChar 2; TVarchar (Some 7); TVarchar None] [2; 7; 1]
  /\ concat_type [TVarchar (Some 3); TVarchar (Some 4)] = Ok (TVarchar None).
Proof.
  split; [vm_compute; reflexivity|]. split; [vm_compute; reflexivity|]. split; [|vm_compute; reflexivity].
  constructor; [constructor|]. constructor; [exact (length_varchar 7)|]. repeat constructor.
Qed.

(** C43.  The row type of UNION, INTERSECT and EXCEPT: column by column the wider
    type. *)
Theorem C43_columns_widest : forall l r,
  length l = length r -> ranked l -> ranked r ->
  exists ts, set_type (TRow l) (TRow r) = Ok (TRow ts)
             /\ Forall2 (fun p t => widest [fst p; snd p] t) (combine l r) ts.
Proof.
  intros l r L Rl Rr.
  assert (G : exists ts, common_row_list l r = Ok ts
                         /\ Forall2 (fun p t => widest [fst p; snd p] t) (combine l r) ts).
  { revert r L Rr. induction l as [|a l IH]; intros [|b r] L Rr; try discriminate L.
    - exists []. split; [reflexivity|constructor].
    - destruct (IH (fun x I => Rl x (or_intror I)) r ltac:(cbn in L; lia) (fun x I => Rr x (or_intror I))) as (ts & E & F).
      destruct (C41_if_widest a b) as (t & Et & W).
      { intros x [<-|[<-|[]]]; [apply Rl | apply Rr]; left; reflexivity. }
      cbn [if_type] in Et. exists (t :: ts). split.
      + cbn [common_row_list]. rewrite Et. cbn [bind]. rewrite E. reflexivity.
      + cbn [combine]. constructor; [exact W | exact F]. }
  destruct G as (ts & E & F). exists ts. split; [|exact F].
  unfold set_type.
  change (is_unknown (TRow l)) with false. change (is_unknown (TRow r)) with false. cbn [orb].
  rewrite E. reflexivity.
Qed.
Print Assumptions C43_columns_widest.
(** Equal types on both sides are kept, whatever they are. *)
Theorem C43_same : forall t, set_type t t = Ok t.
Proof.
  intro t. unfold set_type. destruct (is_unknown t) eqn:U; cbn [orb].
  - apply dtype_eqb_eq in U. now subst.
  - assert (G : forall l, common_row_list l l = Ok l).
    { induction l as [|x l IH]; cbn [common_row_list]; [reflexivity|].
      rewrite common_supertype_same. cbn [bind]. rewrite IH. reflexivity. }
    destruct t; try apply common_supertype_same. rewrite G. reflexivity.
Qed.
Print Assumptions C43_same.
(** A row type with a different number of columns is accepted: the result has the
    columns of the shorter side. *)
Theorem C43_width : forall l r t,
  set_type (TRow l) (TRow r) = Ok t -> exists ts, t = TRow ts /\ length ts = Nat.min (length l) (length r).
Proof.
  intros l r t E. unfold set_type in E.
  change (is_unknown (TRow l)) with false in E. change (is_unknown (TRow r)) with false in E. cbn [orb] in E.
  destruct (common_row_list l r) as [ts|] eqn:G; cbn [bind] in E; [|discriminate E]. injection E as <-.
  exists ts. split; [reflexivity|]. revert r ts G.
  induction l as [|a l IH]; intros [|b r] ts G; cbn [common_row_list length Nat.min] in *;
    try (injection G as <-; reflexivity).
  destruct (common_supertype a b); cbn [bind] in G; [|discriminate G].
  destruct (common_row_list l r) as [ts'|] eqn:G'; cbn [bind] in G; [|discriminate G].
  injection G as <-. cbn [length]. f_equal. now apply IH.
Qed.
Print Assumptions C43_width.
Theorem C43_width_refuted :
  set_type (TRow [TSimple SInteger; TSimple SInteger]) (TRow [TSimple SInteger; TSimple SBigint; TSimple SDate])
  = Ok (TRow [TSimple SInteger; TSimple SBigint]).
Proof. vm_compute; reflexivity. Qed.
Print Assumptions C43_width_refuted.
(** A NULL column on one side raises, although a single NULL column does not. *)
Theorem C43_null_refuted :
  set_type (TRow [TSimple SInteger; TSimple SInteger]) (TRow [TSimple SInteger; unknown]) = Err AssertionError
  /\ set_type (TSimple SInteger) unknown = Ok unknown.
Proof. vm_compute; split; reflexivity. Qed.
Print Assumptions C43_null_refuted.
Example C43_case :
  set_type (TRow [TSimple SInteger; TSimple SReal]) (TRow [TSimple SBigint; TSimple SInteger])
  = Ok (TRow [TSimple SBigint; TSimple SReal])
  /\ ranked [TSimple SInteger; TSimple SReal].
Proof.
  split; [vm_compute; reflexivity|]. intros x [<-|[<-|[]]]; eexists; reflexivity.
Qed.
