(** Model of treeno/datatypes/conversions.py on canonical data types. *)
From Coq Require Import String List ZArith Bool.
From Verif Require Import PyStr Types.
Import ListNotations.
Open Scope string_scope.
Open Scope Z_scope.

(** conversions.py 47-59. *)
Definition integral_types := ["INTEGER"; "BIGINT"; "SMALLINT"; "TINYINT"].
Definition float_types := ["REAL"; "DOUBLE"].
Definition numeric_types := (integral_types ++ float_types ++ ["DECIMAL"])%list.
Definition string_types := ["CHAR"; "VARCHAR"].
Definition hll_types := ["HYPERLOGLOG"; "P4HYPERLOGLOG"].
Definition datetime_types := ["DATE"; "TIME"; "TIMESTAMP"].
Definition max_char_length : Z := 65536.
Definition integral_precision (name : string) : result Z :=
  if String.eqb name "TINYINT" then Ok 3
  else if String.eqb name "SMALLINT" then Ok 5
  else if String.eqb name "INTEGER" then Ok 10
  else if String.eqb name "BIGINT" then Ok 19
  else Err KeyError.

Definition is_in (t : dtype) (l : list string) : bool := mem (type_name t) l.
Definition same_name (a b : dtype) : bool := String.eqb (type_name a) (type_name b).

(** conversions.py 319-329, the keys of COMMON_CONVERSION_MAP. *)
Definition conversion_map_keys :=
  ["DECIMAL"; "VARCHAR"; "CHAR"; "ROW"; "ARRAY"; "MAP"; "TIME"; "TIMESTAMP"; "INTERVAL"].

(** conversions.py 219-226. *)
Definition common_decimal (a b : dtype) : result dtype :=
  match a, b with
  | TDecimal p1 s1, TDecimal p2 s2 =>
      let scale := Z.max s1 s2 in
      decimal (Z.max (p1 - s1) (p2 - s2) + scale) scale
  | _, _ => Err AssertionError
  end.

(** conversions.py 229-239. *)
Definition common_varchar (a b : dtype) : result dtype :=
  match a, b with
  | TVarchar (Some c1), TVarchar (Some c2) => Ok (TVarchar (Some (Z.max c1 c2)))
  | TVarchar _, TVarchar _ => Ok (TVarchar None)
  | _, _ => Err AssertionError
  end.

(** conversions.py 242-252 (a CHAR always has [max_chars]). *)
Definition common_char (a b : dtype) : result dtype :=
  match a, b with
  | TChar c1, TChar c2 => Ok (TChar (Z.max c1 c2))
  | _, _ => Err AssertionError
  end.

(** conversions.py 284-303: both functions pass the unknown keyword
    [timezoned] to the builder, whose subset assertion (types.py 105-107)
    fails; before that, a missing precision is a KeyError. *)
Definition common_timelike (p1 p2 : option Z) : result dtype :=
  match p1, p2 with
  | Some _, Some _ => Err AssertionError
  | _, _ => Err KeyError
  end.

(** conversions.py 306-316. *)
Definition common_interval (a b : dtype) : result dtype :=
  match a, b with
  | TInterval k1, TInterval k2 =>
      if (String.eqb (iv_from k1) (iv_from k2) && String.eqb (iv_to k1) (iv_to k2))%bool
      then Ok a else Ok unknown
  | _, _ => Err AssertionError
  end.

(** conversions.py 211-216. *)
Definition common_float (a b : dtype) : result dtype :=
  let* _ := py_assert (is_in a float_types && is_in b float_types)%bool in
  Ok (if String.eqb (type_name a) "DOUBLE" then a else b).

(** conversions.py 197-208. *)
Definition common_integral (a b : dtype) : result dtype :=
  let* _ := py_assert (is_in a integral_types && is_in b integral_types)%bool in
  let* p1 := integral_precision (type_name a) in
  let* p2 := integral_precision (type_name b) in
  Ok (if p1 >? p2 then a else b).

(** conversions.py 191-194. *)
Definition promote_integral_to_decimal (a : dtype) : result dtype :=
  let* p := integral_precision (type_name a) in decimal p 0.

(** conversions.py 183-188 ([char()] has the default length 1). *)
Definition promote_varchar_to_char (a : dtype) : result dtype :=
  match a with
  | TVarchar None => Ok (TChar 1)
  | TVarchar (Some c) => Ok (TChar (Z.min max_char_length c))
  | _ => Err NotModelled (* never called on another type, see [common_string] *)
  end.

(** conversions.py 147-180. *)
Definition common_numeric (a b : dtype) : result dtype :=
  let* _ := py_assert (is_in a numeric_types && is_in b numeric_types)%bool in
  if is_in a integral_types then
    if is_in b integral_types then common_integral a b
    else if is_in b float_types then Ok b
    else let* _ := py_assert (String.eqb (type_name b) "DECIMAL") in
         let* a' := promote_integral_to_decimal a in
         common_decimal a' b
  else if is_in a float_types then
    if is_in b float_types then common_float a b else Ok a
  else
    let* _ := py_assert (String.eqb (type_name a) "DECIMAL") in
    if is_in b integral_types then
      let* b' := promote_integral_to_decimal b in common_decimal a b'
    else if is_in b float_types then Ok b
    else Err TypeError.

(** conversions.py 123-144. *)
Definition common_string (a b : dtype) : result dtype :=
  let* _ := py_assert (is_in a string_types && is_in b string_types)%bool in
  if (String.eqb (type_name a) "CHAR" || String.eqb (type_name b) "CHAR")%bool then
    let* a' := if String.eqb (type_name a) "CHAR" then Ok a else promote_varchar_to_char a in
    let* b' := if String.eqb (type_name b) "CHAR" then Ok b else promote_varchar_to_char b in
    common_char a' b'
  else common_varchar a b.

(** conversions.py 114-120. *)
Definition common_hll (a b : dtype) : result dtype :=
  let* _ := py_assert (is_in a hll_types && is_in b hll_types)%bool in
  Ok (TSimple SHll).

(** conversions.py 101-111. *)
Definition common_datetime (a b : dtype) : result dtype :=
  let* _ := py_assert (is_in a datetime_types && is_in b datetime_types)%bool in
  let na := type_name a in
  let nb := type_name b in
  if ((String.eqb na "DATE" && String.eqb nb "TIME")
      || (String.eqb na "TIME" && String.eqb nb "DATE"))%bool
  then Ok unknown
  else Ok (if String.eqb na "TIMESTAMP" then a else b).

(** conversions.py 73-90 [common_supertype], with [common_same_type] (93-98)
    and the recursive cases [common_row] (255-262, zip stops at the shorter
    list), [common_map] (265-273), [common_array] (276-281) inlined; the result
    of [common_same_type] is dropped at line 80. *)
Fixpoint common_supertype (a b : dtype) {struct a} : result dtype :=
  if same_name a b then
    if dtype_eqb a b then Ok a
    else
      let* _ :=
        match a, b with
        | TRow l1, TRow l2 =>
            let* l := (fix go (l1 l2 : list dtype) : result (list dtype) :=
                         match l1, l2 with
                         | x :: r1, y :: r2 =>
                             let* t := common_supertype x y in
                             let* ts := go r1 r2 in Ok (t :: ts)
                         | _, _ => Ok []
                         end) l1 l2 in
            Ok (TRow l)
        | TArray t1, TArray t2 =>
            let* t := common_supertype t1 t2 in Ok (TArray t)
        | TMap f1 t1, TMap f2 t2 =>
            let* f := common_supertype f1 f2 in
            let* t := common_supertype t1 t2 in Ok (TMap f t)
        | TDecimal _ _, _ => common_decimal a b
        | TVarchar _, _ => common_varchar a b
        | TChar _, _ => common_char a b
        | TTime p1 _, TTime p2 _ => common_timelike p1 p2
        | TTimestamp p1 _, TTimestamp p2 _ => common_timelike p1 p2
        | TInterval _, _ => common_interval a b
        | _, _ => Ok unknown (* not in COMMON_CONVERSION_MAP, line 79 *)
        end in
      Ok unknown
  else if is_in a numeric_types then common_numeric a b
  else if is_in a string_types then common_string a b
  else if is_in a hll_types then common_hll a b
  else if is_in a datetime_types then common_datetime a b
  else Err TypeError.

(** conversions.py 255-262. *)
Fixpoint common_row_list (l1 l2 : list dtype) : result (list dtype) :=
  match l1, l2 with
  | x :: r1, y :: r2 =>
      let* t := common_supertype x y in
      let* ts := common_row_list r1 r2 in Ok (t :: ts)
  | _, _ => Ok []
  end.

(** conversions.py 93-98. *)
Definition common_same_type (a b : dtype) : result dtype :=
  let* _ := py_assert (same_name a b && is_in a conversion_map_keys)%bool in
  match a, b with
  | TRow l1, TRow l2 => let* l := common_row_list l1 l2 in Ok (TRow l)
  | TArray t1, TArray t2 => let* t := common_supertype t1 t2 in Ok (TArray t)
  | TMap f1 t1, TMap f2 t2 =>
      let* f := common_supertype f1 f2 in
      let* t := common_supertype t1 t2 in Ok (TMap f t)
  | TDecimal _ _, _ => common_decimal a b
  | TVarchar _, _ => common_varchar a b
  | TChar _, _ => common_char a b
  | TTime p1 _, TTime p2 _ => common_timelike p1 p2
  | TTimestamp p1 _, TTimestamp p2 _ => common_timelike p1 p2
  | TInterval _, _ => common_interval a b
  | _, _ => Err AssertionError
  end.

(** conversions.py 62-70. *)
Definition get_arithmetic_type (a b : dtype) : result dtype :=
  if dtype_eqb a b then Ok a
  else if same_name a b then common_same_type a b
  else if (is_in a numeric_types && is_in b numeric_types)%bool then common_numeric a b
  else Ok unknown.

(** relation.py 691-696: the row type of a VALUES query, a fold that starts
    from unknown. *)
Fixpoint values_fold (acc : dtype) (l : list dtype) : result dtype :=
  match l with
  | [] => Ok acc
  | t :: l' =>
      let* acc' := if is_unknown acc then Ok t else common_supertype acc t in
      values_fold acc' l'
  end.
Definition values_type (l : list dtype) : result dtype := values_fold unknown l.

(** Python [functools.reduce(common_supertype, l)]. *)
Fixpoint reduce_from (acc : dtype) (l : list dtype) : result dtype :=
  match l with
  | [] => Ok acc
  | t :: l' => let* acc' := common_supertype acc t in reduce_from acc' l'
  end.
Definition reduce_supertype (l : list dtype) : result dtype :=
  match l with
  | [] => Err TypeError
  | t :: l' => reduce_from t l'
  end.

(** functions/conditional.py 48-54 (COALESCE). *)
Definition coalesce_type (l : list dtype) : result dtype :=
  reduce_supertype (filter (fun t => negb (is_unknown t)) l).
(** functions/conditional.py 21-28 (IF). *)
Definition if_type (t : dtype) (f : option dtype) : result dtype :=
  match f with Some f => common_supertype t f | None => Ok t end.

(** functions/common.py 26-54. *)
Fixpoint array_layers (t : dtype) : nat :=
  match t with TArray t => S (array_layers t) | _ => 0%nat end.
Definition array_concat_type (l : list dtype) : result dtype :=
  let ns := map array_layers l in
  let mx := fold_right Nat.max 0%nat ns in
  let mn := fold_right Nat.min mx ns in
  let* _ := py_assert (Nat.leb (mx - mn) 1) in
  let strip t := match t with
                 | TArray u => if Nat.eqb (array_layers t) mx then u else t
                 | _ => t
                 end in
  let* t := reduce_supertype (map strip l) in
  Ok (TArray t).
(** functions/common.py 57-71. *)
Definition string_concat_type (l : list dtype) : result dtype :=
  if existsb (fun t => String.eqb (type_name t) "CHAR") l then
    (fix go (m : Z) (l : list dtype) : result dtype :=
       match l with
       | [] => Ok (TChar m)
       | t :: l' =>
           let* t := if String.eqb (type_name t) "CHAR" then Ok t else promote_varchar_to_char t in
           match t with
           | TChar c => go (m + c) l'
           | _ => Err KeyError
           end
       end) 0 l
  else Ok (TVarchar None).
(** functions/common.py 79-90; with no branch taken the type stays unknown
    (expression.py 79-100, default of [data_type]).  The last branch compares
    the set of names with {VARBINARY}. *)
Definition concat_type (l : list dtype) : result dtype :=
  let has n := existsb (fun t => String.eqb (type_name t) n) l in
  if has "UNKNOWN" then Ok unknown
  else if has "ARRAY" then array_concat_type l
  else if forallb (fun t => is_in t string_types) l then string_concat_type l
  else if forallb (fun t => String.eqb (type_name t) "VARBINARY") l then Ok (TSimple SVarbinary)
  else Ok unknown.

(** relation.py 280-311: the row type of a set operation. *)
Definition set_type (l r : dtype) : result dtype :=
  if (is_unknown l || is_unknown r)%bool then Ok unknown
  else
    match l, r with
    | TRow ls, TRow rs => let* ts := common_row_list ls rs in Ok (TRow ts)
    | TRow _, _ | _, TRow _ => Err AssertionError
    | _, _ => common_supertype l r
    end.
