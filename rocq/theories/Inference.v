(** Model of treeno/datatypes/inference.py, of the literal payloads of
    treeno/expression.py [Literal], and of the Python [Decimal] operations used
    on them (text, construction from text, unary minus). *)
From Coq Require Import String Ascii List ZArith NArith Bool.
From Verif Require Import PyStr Types.
Import ListNotations.
Open Scope string_scope.

(** A finite Python [Decimal]: sign, coefficient, exponent. *)
Record dec := mkDec { dneg : bool; dcoef : N; dexp : Z }.

(** First [n] characters and the rest. *)
Fixpoint take (n : nat) (s : string) : string :=
  match n, s with
  | S n', String c s' => String c (take n' s')
  | _, _ => ""
  end.
Fixpoint drop (n : nat) (s : string) : string :=
  match n, s with
  | S n', String _ s' => drop n' s'
  | _, _ => s
  end.

Definition zeros (n : nat) : string := repeat_char "0" n.
Definition zlen (s : string) : Z := Z.of_nat (String.length s).

(** CPython [Decimal.__str__] (Lib/_pydecimal.py), not part of /repo; the
    engineering and special-value branches do not apply. *)
Definition dec_str (d : dec) : string :=
  let sign := if dneg d then "-" else "" in
  let int := str_of_N (dcoef d) in
  let len := zlen int in
  let leftdigits := (dexp d + len)%Z in
  let dotplace := if ((dexp d <=? 0) && (-6 <? leftdigits))%Z then leftdigits else 1%Z in
  let body :=
    if (dotplace <=? 0)%Z then
      "0." ++ zeros (Z.to_nat (- dotplace)) ++ int
    else if (len <=? dotplace)%Z then
      int ++ zeros (Z.to_nat (dotplace - len))
    else take (Z.to_nat dotplace) int ++ "." ++ drop (Z.to_nat dotplace) int in
  let e := (leftdigits - dotplace)%Z in
  let expo := if Z.eqb e 0 then ""
              else "E" ++ (if (0 <=? e)%Z then "+" else "") ++ str_of_Z e in
  sign ++ body ++ expo.

(** Text of the form digits . digits (the form of SqlBase.g4 1164-1167): split
    at the first dot. *)
Fixpoint split_dot (s : string) : string * option string :=
  match s with
  | "" => ("", None)
  | String c s' =>
      if Ascii.eqb c "." then ("", Some s')
      else let '(a, b) := split_dot s' in (String c a, b)
  end.
(** [Decimal(text)] for such a text without sign. *)
Definition dec_of_text (s : string) : dec :=
  match split_dot s with
  | (i, Some f) => mkDec false (N_of_str (i ++ f)) (- zlen f)
  | (i, None) => mkDec false (N_of_str i) 0
  end.

(** Unary minus of the decimal module: exact sign flip (a zero becomes
    positive), then rounding to the context precision of 28 digits with
    ROUND_HALF_EVEN.  The exponent limits of the context (999999) are not
    modelled. *)
Definition ctx_prec : nat := 28.
Definition round_ctx (d : dec) : dec :=
  let n := String.length (str_of_N (dcoef d)) in
  if Nat.leb n ctx_prec then d
  else
    let k := N.of_nat (n - ctx_prec) in
    let q := (dcoef d / 10 ^ k)%N in
    let r := (dcoef d mod 10 ^ k)%N in
    let half := (5 * 10 ^ (k - 1))%N in
    let up := (N.ltb half r || (N.eqb half r && N.odd q))%bool in
    let q' := (if up then q + 1 else q)%N in
    if N.eqb q' (10 ^ N.of_nat ctx_prec)
    then mkDec (dneg d) (q' / 10)%N (dexp d + Z.of_N k + 1)%Z
    else mkDec (dneg d) q' (dexp d + Z.of_N k)%Z.
Definition dec_neg (d : dec) : dec :=
  round_ctx (mkDec (if N.eqb (dcoef d) 0 then false else negb (dneg d)) (dcoef d) (dexp d)).

(** Payloads of a [Literal].  A [float] is carried as its [repr] text; only
    printing of floats is modelled. *)
Inductive lit :=
| LNone | LBool (b : bool) | LInt (z : Z) | LDec (d : dec) | LStr (s : string)
| LFloat (repr : string).

(** inference.py 46-47. *)
Definition infer_integral (z : Z) : dtype :=
  if ((- 2147483648 <=? z) && (z <=? 2147483647))%Z then TSimple SInteger
  else TSimple SBigint.

Fixpoint index_of (c : ascii) (s : string) : option nat :=
  match s with
  | "" => None
  | String d s' =>
      if Ascii.eqb c d then Some 0
      else match index_of c s' with None => None | Some n => Some (S n) end
  end.

(** inference.py 50-63 (the text of a Decimal has at most one dot). *)
Definition infer_decimal (d : dec) : result dtype :=
  let s := dec_str d in
  match index_of "." s with
  | None => decimal (zlen s) 0
  | Some pos => decimal (zlen s - 1) (zlen s - Z.of_nat pos - 1)
  end.

(** inference.py 20-39. *)
Definition infer_type (l : lit) : result dtype :=
  match l with
  | LBool _ => Ok boolean
  | LInt z => Ok (infer_integral z)
  | LFloat _ => Ok double
  | LDec d => infer_decimal d
  | LStr s => Ok (TVarchar (Some (zlen s)))
  | LNone => Err NotImplementedError
  end.

(** inference.py 66-72: digits between the last dot and the next blank. *)
Fixpoint after_last_dot (s : string) : string :=
  match s with
  | "" => ""
  | String c s' => if has_char "." s' then after_last_dot s'
                   else if Ascii.eqb c "." then s' else after_last_dot s'
  end.
Fixpoint until_blank (s : string) : string :=
  match s with
  | "" => ""
  | String c s' => if Ascii.eqb c " " then "" else String c (until_blank s')
  end.
Definition infer_timelike_precision (s : string) : Z :=
  if has_char "." s then zlen (until_blank (after_last_dot s)) else 0%Z.
