(** Python values used everywhere: exceptions as values, and the string
    operations the code base relies on.  Text is a Coq [string] (8-bit code
    units); letter case is modelled for ASCII letters only. *)
From Coq Require Import String Ascii List ZArith NArith Bool.
Import ListNotations.
Open Scope string_scope.

(** Python exception classes that the modelled code can raise.
    [SyntaxErr] stands for "ANTLR reports a syntax error" (the recovery that
    ANTLR then attempts is not modelled), [OutOfFuel] for the model's own
    recursion bound, [NotModelled] for code paths left out of the model. *)
Inductive exn :=
| AssertionError | TypeError | KeyError | ValueError | AttributeError
| IndexError | NotImplementedError | UnicodeDecodeError | SyntaxErr | OutOfFuel | NotModelled.

Inductive result (A : Type) : Type :=
| Ok (a : A)
| Err (e : exn).
Arguments Ok {A} a.
Arguments Err {A} e.

Definition bind {A B} (r : result A) (f : A -> result B) : result B :=
  match r with Ok a => f a | Err e => Err e end.

Notation "'let*' x ':=' r 'in' k" := (bind r (fun x => k))
  (at level 200, x pattern, r at level 100, k at level 200, right associativity).

Definition is_ok {A} (r : result A) : bool :=
  match r with Ok _ => true | Err _ => false end.

Fixpoint map_result {A B} (f : A -> result B) (l : list A) : result (list B) :=
  match l with
  | [] => Ok []
  | a :: l' => let* b := f a in let* bs := map_result f l' in Ok (b :: bs)
  end.

(** Python [assert b]. *)
Definition py_assert (b : bool) : result unit :=
  if b then Ok tt else Err AssertionError.

(** * Characters *)

Definition code (c : ascii) : N := N_of_ascii c.
Definition in_range (lo hi : N) (c : ascii) : bool :=
  (N.leb lo (code c) && N.leb (code c) hi)%bool.

(** SqlBase.g4 1194-1200 fragments DIGIT and LETTER. *)
Definition is_digit (c : ascii) : bool := in_range 48 57 c.
Definition is_upper (c : ascii) : bool := in_range 65 90 c.
Definition is_lower (c : ascii) : bool := in_range 97 122 c.
Definition is_letter (c : ascii) : bool := (is_upper c || is_lower c)%bool.
Definition is_word (c : ascii) : bool :=
  (is_letter c || is_digit c || Ascii.eqb c "_")%bool.

Definition upper_char (c : ascii) : ascii :=
  if is_lower c then ascii_of_N (code c - 32) else c.
Definition lower_char (c : ascii) : ascii :=
  if is_upper c then ascii_of_N (code c + 32) else c.

Fixpoint str_map (f : ascii -> ascii) (s : string) : string :=
  match s with "" => "" | String c s' => String (f c) (str_map f s') end.

(** Python [str.upper] / [str.lower], ASCII letters only. *)
Definition upper (s : string) : string := str_map upper_char s.
Definition lower (s : string) : string := str_map lower_char s.

Fixpoint str_forall (f : ascii -> bool) (s : string) : bool :=
  match s with "" => true | String c s' => (f c && str_forall f s')%bool end.

Fixpoint str_exists (f : ascii -> bool) (s : string) : bool :=
  match s with "" => false | String c s' => (f c || str_exists f s')%bool end.

Definition has_char (c : ascii) (s : string) : bool := str_exists (Ascii.eqb c) s.

Definition nl : ascii := ascii_of_N 10.
Definition nls : string := String nl "".
Definition dquote : ascii := ascii_of_N 34.
Definition squote : ascii := "'"%char.

(** [" " * n] and friends. *)
Fixpoint repeat_char (c : ascii) (n : nat) : string :=
  match n with O => "" | S n' => String c (repeat_char c n') end.
Definition spaces (n : nat) : string := repeat_char " " n.

(** Python [d.join(l)]. *)
Definition join (d : string) (l : list string) : string := String.concat d l.

(** util.py 24-25, 28-29, 44-45 ([parenthesize] on a text). *)
Definition quote_identifier (s : string) : string :=
  String dquote (s ++ String dquote "").
Definition parenthesize (s : string) : string := "(" ++ s ++ ")".
Definition quote_literal (s : string) : string :=
  String squote (s ++ String squote "").

(** util.py 32-41. *)
Fixpoint drop_none {A} (l : list (option A)) : list A :=
  match l with
  | [] => []
  | None :: l' => drop_none l'
  | Some a :: l' => a :: drop_none l'
  end.
Definition chain_identifiers (ids : list (option string)) : string :=
  join "." (map quote_identifier (drop_none ids)).

(** Python [s.strip(c)] for a single character [c]: remove all leading and all
    trailing occurrences. *)
Fixpoint lstrip (c : ascii) (s : string) : string :=
  match s with
  | "" => ""
  | String d s' => if Ascii.eqb c d then lstrip c s' else s
  end.
Fixpoint rstrip (c : ascii) (s : string) : string :=
  match s with
  | "" => ""
  | String d s' =>
      match rstrip c s' with
      | "" => if Ascii.eqb c d then "" else String d ""
      | r => String d r
      end
  end.
Definition strip (c : ascii) (s : string) : string := rstrip c (lstrip c s).

(** * Decimal numbers *)

Definition digit_char (d : N) : ascii := ascii_of_N (48 + d).
Definition digit_val (c : ascii) : N := code c - 48.

(** Most significant digit first; [fuel] must exceed the number of digits - 1. *)
Fixpoint pr_N (fuel : nat) (n : N) (acc : string) : string :=
  match fuel with
  | O => acc
  | S f =>
      let acc' := String (digit_char (n mod 10)) acc in
      if N.eqb (n / 10) 0 then acc' else pr_N f (n / 10)%N acc'
  end.
(** Python [str(n)] for a natural number. *)
Definition str_of_N (n : N) : string := pr_N (S (N.size_nat n)) n "".
(** Python [str(z)]. *)
Definition str_of_Z (z : Z) : string :=
  match z with
  | Zneg p => String "-" (str_of_N (Npos p))
  | _ => str_of_N (Z.to_N z)
  end.

Fixpoint val_acc (acc : N) (s : string) : N :=
  match s with
  | "" => acc
  | String c s' => val_acc (10 * acc + digit_val c)%N s'
  end.
(** Python [int(s)] for a text of digits. *)
Definition N_of_str (s : string) : N := val_acc 0 s.

(** * splitlines *)

(** Line boundaries of Python [str.splitlines] below 256:
    \n \r \v \f \x1c \x1d \x1e \x85. *)
Definition is_break (c : ascii) : bool :=
  let n := code c in
  (in_range 10 13 c || in_range 28 30 c || N.eqb n 133)%bool.

(** [cur] is the line read so far; "\r\n" is one boundary.  A text that ends in
    a boundary has no further (empty) line. *)
Fixpoint splitlines_aux (cur : string) (s : string) : list string :=
  match s with
  | "" => match cur with "" => [] | _ => [cur] end
  | String c s' =>
      if is_break c then
        match s' with
        | String d s'' =>
            if (N.eqb (code c) 13 && N.eqb (code d) 10)%bool
            then cur :: splitlines_aux "" s''
            else cur :: splitlines_aux "" s'
        | "" => [cur]
        end
      else splitlines_aux (cur ++ String c "") s'
  end.
Definition splitlines (s : string) : list string := splitlines_aux "" s.

(** Association lists for Python dicts (keys unique, insertion order). *)
Fixpoint assoc {A} (k : string) (l : list (string * A)) : option A :=
  match l with
  | [] => None
  | (k', a) :: l' => if String.eqb k k' then Some a else assoc k l'
  end.
Definition mem (s : string) (l : list string) : bool := existsb (String.eqb s) l.
