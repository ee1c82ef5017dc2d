(** Unicode strings: treeno/builder/convert.py 738-755, with the Python string methods and the
    codec it uses (CPython's [unicode_escape] decoder, Objects/unicodeobject.c).  Characters above
    255 are outside the model of text: a string that has one is [NotModelled]. *)
From Coq Require Import String Ascii List ZArith NArith Bool.
From Verif Require Import PyStr.
Import ListNotations.
Open Scope string_scope.

(** * String methods *)

(** Python [s.strip(chars)] for a set of characters. *)
Fixpoint lstrip_set (f : ascii -> bool) (s : string) : string :=
  match s with
  | "" => ""
  | String d s' => if f d then lstrip_set f s' else s
  end.
Fixpoint rstrip_set (f : ascii -> bool) (s : string) : string :=
  match s with
  | "" => ""
  | String d s' =>
      match rstrip_set f s' with
      | "" => if f d then "" else String d ""
      | r => String d r
      end
  end.
Definition strip_set (f : ascii -> bool) (s : string) : string := rstrip_set f (lstrip_set f s).

(** [s] after the prefix [p]. *)
Fixpoint after_prefix (p s : string) : option string :=
  match p, s with
  | "", _ => Some s
  | String c p', String d s' => if Ascii.eqb c d then after_prefix p' s' else None
  | String _ _, "" => None
  end.
Fixpoint replace_fuel (fuel : nat) (old new s : string) : string :=
  match fuel, s with
  | S f, String c s' =>
      match after_prefix old s with
      | Some r => new ++ replace_fuel f old new r
      | None => String c (replace_fuel f old new s')
      end
  | _, _ => ""
  end.
(** An empty pattern occurs before every character and at the end. *)
Fixpoint between_all (new s : string) : string :=
  match s with
  | "" => new
  | String c s' => new ++ String c (between_all new s')
  end.
(** Python [s.replace(old, new)]. *)
Definition replace (old new s : string) : string :=
  match old with
  | "" => between_all new s
  | _ => replace_fuel (String.length s) old new s
  end.

(** * The decoder *)
Definition hex_val (c : ascii) : option N :=
  if is_digit c then Some (code c - 48)%N
  else if in_range 65 70 c then Some (code c - 55)%N
  else if in_range 97 102 c then Some (code c - 87)%N
  else None.
(** Exactly [n] hexadecimal digits. *)
Fixpoint hexes (n : nat) (acc : N) (s : string) : option (N * string) :=
  match n with
  | O => Some (acc, s)
  | S n' =>
      match s with
      | String c s' =>
          match hex_val c with Some v => hexes n' (16 * acc + v)%N s' | None => None end
      | "" => None
      end
  end.
(** Up to [n] octal digits. *)
Fixpoint octals (n : nat) (acc : N) (s : string) : N * string :=
  match n, s with
  | S n', String c s' =>
      if in_range 48 55 c then octals n' (8 * acc + (code c - 48))%N s' else (acc, s)
  | _, _ => (acc, s)
  end.
(** The character with a code. *)
Definition char_of (n : N) : result ascii :=
  if N.leb n 255 then Ok (ascii_of_N n)
  else if N.leb n 1114111 then Err NotModelled else Err UnicodeDecodeError.
(** The escapes of one letter: quotes, the backslash and control characters. *)
Definition letter_escape (c : ascii) : option ascii :=
  let known := [("\"%char, 92%N); (squote, 39%N); (dquote, 34%N); ("a"%char, 7%N); ("b"%char, 8%N);
                ("t"%char, 9%N); ("n"%char, 10%N); ("v"%char, 11%N); ("f"%char, 12%N); ("r"%char, 13%N)] in
  match find (fun p => Ascii.eqb c (fst p)) known with
  | Some p => Some (ascii_of_N (snd p))
  | None => None
  end.
(** [bytes.decode("unicode_escape")].  Names of characters are not modelled; a backslash before
    anything else stays. *)
Fixpoint decode_fuel (fuel : nat) (s : string) : result string :=
  match fuel, s with
  | S f, String c s' =>
      let then_ (x : result ascii) (r : string) :=
        let* a := x in let* t := decode_fuel f r in Ok (String a t) in
      let code_of (n : nat) (r : string) :=
        match hexes n 0 r with
        | Some (v, r') => then_ (char_of v) r'
        | None => Err UnicodeDecodeError
        end in
      if Ascii.eqb c "\" then
        match s' with
        | "" => Err UnicodeDecodeError
        | String d r =>
            if Ascii.eqb d nl then decode_fuel f r
            else if Ascii.eqb d "x" then code_of 2%nat r
            else if Ascii.eqb d "u" then code_of 4%nat r
            else if Ascii.eqb d "U" then code_of 8%nat r
            else if Ascii.eqb d "N" then
              match r with
              | String b _ => if Ascii.eqb b "{" then Err NotModelled else Err UnicodeDecodeError
              | "" => Err UnicodeDecodeError
              end
            else if in_range 48 55 d then
              let '(v, r') := octals 3 0 s' in then_ (char_of v) r'
            else match letter_escape d with
                 | Some a => then_ (Ok a) r
                 | None => then_ (Ok c) s'
                 end
        end
      else then_ (Ok c) s'
  | _, _ => Ok ""
  end.
Definition decode (s : string) : result string := decode_fuel (String.length s) s.

(** convert.py 738-755: [escape] is the text between the quotes of UESCAPE, a backslash without it.
    Encoding by [raw_unicode_escape] leaves characters below 256 as they are. *)
Definition v_unicode (escape txt : string) : result string :=
  let body := strip squote (strip_set (fun c => (Ascii.eqb c "U" || Ascii.eqb c "&")%bool) txt) in
  decode (replace escape "\u" body).
