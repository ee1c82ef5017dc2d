(** Python [float] as far as treeno/builder/convert.py 723-729 ([float(text)]) and
    treeno/expression.py 264-277 ([str] of the value) need it: the nearest binary64 number to a
    decimal text, and the shortest decimal text that denotes it.  This is CPython's behaviour
    (Python/dtoa.c, [float_repr_style] "short", and [format_float_short] of Python/pystrtod.c),
    not part of /repo.  A float is carried as that text. *)
From Coq Require Import String Ascii List ZArith NArith Bool.
From Verif Require Import PyStr Inference.
Import ListNotations.
Open Scope string_scope.

(** * From decimal to binary *)

(** The absolute value of a float: zero, [m * 2^k], or infinity. *)
Inductive float64 := FZero | FFin (m k : Z) | FInf.

(** [n / d] rounded to an integer, halves to the even one. *)
Definition nearest (n d : Z) : Z :=
  let q := (n / d)%Z in
  let r := (n mod d)%Z in
  if (2 * r <? d)%Z then q
  else if (d <? 2 * r)%Z then (q + 1)%Z
  else if Z.even q then q else (q + 1)%Z.
(** The fraction [n / d * b^e], as numerator and denominator. *)
Definition scale (b e n d : Z) : Z * Z :=
  if (0 <=? e)%Z then ((n * b ^ e)%Z, d) else (n, (d * b ^ (- e))%Z).
(** The float nearest to [c * 10^e]: 53 bits, the least exponent -1074, the largest 971. *)
Definition to_float (c e : Z) : float64 :=
  if (c =? 0)%Z then FZero
  else
    let '(n, d) := scale 10 e c 1 in
    let l := (Z.log2 n - Z.log2 d)%Z in
    let '(n1, d1) := scale 2 (- l) n d in
    let k := Z.max (-1074) (if (d1 <=? n1)%Z then l - 52 else l - 53)%Z in
    let '(n2, d2) := scale 2 (- k) n d in
    let m := nearest n2 d2 in
    if (m =? 0)%Z then FZero
    else
      let '(m, k) := if (m =? 2 ^ 53)%Z then ((2 ^ 52)%Z, (k + 1)%Z) else (m, k) in
      if (971 <? k)%Z then FInf else FFin m k.

Definition same_float (a b : float64) : bool :=
  match a, b with
  | FZero, FZero | FInf, FInf => true
  | FFin m k, FFin m' k' => (Z.eqb m m' && Z.eqb k k')%bool
  | _, _ => false
  end.

(** * From binary to decimal *)

(** The number of digits before the point of [n / d] (not positive for numbers below 1/10). *)
Definition point_of (n d : Z) : Z :=
  let est := ((Z.log2 n - Z.log2 d) * 30103 / 100000)%Z in
  let fits p := let '(n1, d1) := scale 10 (- p) n d in ((n1 <? d1) && (d1 <=? 10 * n1))%Z in
  match find fits [est - 1; est; est + 1; est + 2]%Z with Some p => p | None => est end.
(** Among the two numbers of [s] places next to [n / d]: the one that denotes the float [x],
    the closer one if both do. *)
Definition near_digits (x : float64) (n d s : Z) : option Z :=
  let '(n1, d1) := scale 10 s n d in
  let lo := (n1 / d1)%Z in
  let r := (n1 mod d1)%Z in
  let back c := same_float (to_float c (- s)) x in
  match back lo, back (lo + 1)%Z with
  | true, true => Some (if (2 * r <? d1)%Z then lo
                        else if (d1 <? 2 * r)%Z then (lo + 1)%Z
                        else if Z.even lo then lo else (lo + 1)%Z)
  | true, false => Some lo
  | false, true => Some (lo + 1)%Z
  | false, false => None
  end.
(** The least number of digits that will do; 17 always will. *)
Fixpoint shortest (x : float64) (n d pt : Z) (places : list Z) : Z * Z :=
  match places with
  | [] => let s := (17 - pt)%Z in
          let '(n1, d1) := scale 10 s n d in (nearest n1 d1, s)
  | p :: more => let s := (p - pt)%Z in
                 match near_digits x n d s with
                 | Some c => (c, s)
                 | None => shortest x n d pt more
                 end
  end.
Definition places17 : list Z := [1; 2; 3; 4; 5; 6; 7; 8; 9; 10; 11; 12; 13; 14; 15; 16; 17]%Z.

(** Digits without trailing zeros. *)
Definition significant (c : N) : string :=
  match rstrip "0" (str_of_N c) with "" => "0" | s => s end.
Definition pad2 (s : string) : string :=
  match s with String _ "" => "0" ++ s | _ => s end.
(** The text of the digits [ds] with [pt] of them before the point: with an exponent if the point
    is far away. *)
Definition place_point (ds : string) (pt : Z) : string :=
  if ((pt <=? -4) || (16 <? pt))%Z then
    let e := (pt - 1)%Z in
    take 1 ds ++ (match drop 1 ds with "" => "" | f => "." ++ f end)
    ++ "e" ++ (if (e <? 0)%Z then "-" else "+") ++ pad2 (str_of_N (Z.abs_N e))
  else if (pt <=? 0)%Z then "0." ++ zeros (Z.to_nat (- pt)) ++ ds
  else if (zlen ds <=? pt)%Z then ds ++ zeros (Z.to_nat (pt - zlen ds)) ++ ".0"
  else take (Z.to_nat pt) ds ++ "." ++ drop (Z.to_nat pt) ds.
(** [repr] of the absolute value. *)
Definition float_repr (x : float64) : string :=
  match x with
  | FZero => "0.0"
  | FInf => "inf"
  | FFin m k =>
      let '(n, d) := scale 2 k m 1 in
      let '(c, s) := shortest x n d (point_of n d) places17 in
      place_point (significant (Z.to_N c)) (zlen (str_of_N (Z.to_N c)) - s)
  end.

(** * Texts *)

(** A DOUBLE_VALUE (SqlBase.g4 1169-1172) split at its E. *)
Fixpoint split_e (s : string) : string * string :=
  match s with
  | "" => ("", "")
  | String c s' => if Ascii.eqb c "E" then ("", s') else let '(a, b) := split_e s' in (String c a, b)
  end.
Definition exponent_val (s : string) : Z :=
  match s with
  | String c r =>
      if Ascii.eqb c "-" then (- Z.of_N (N_of_str r))%Z
      else if Ascii.eqb c "+" then Z.of_N (N_of_str r)
      else Z.of_N (N_of_str s)
  | "" => 0%Z
  end.
(** [float(text)] for such a text, without sign. *)
Definition float_of_text (s : string) : float64 :=
  let '(m, e) := split_e s in
  let d := dec_of_text m in
  to_float (Z.of_N (dcoef d)) (dexp d + exponent_val e).
(** convert.py 726-729: the text of the float, with its sign ([-0.0] keeps it). *)
Definition float_text_of (neg : bool) (s : string) : string :=
  (if neg then "-" else "") ++ float_repr (float_of_text s).
