(** Model of treeno/printer.py and of the print options of treeno/base.py. *)
From Coq Require Import String Ascii List Arith Bool.
From Verif Require Import PyStr.
Import ListNotations.
Open Scope string_scope.

(** base.py 47-60 [PrintMode], [PrintOptions] (a non-negative [spaces] only). *)
Inductive mode := DEFAULT | PRETTY.
Record opts := mkOpts { omode : mode; ospaces : nat }.
Definition default_opts : opts := mkOpts DEFAULT 4.
Definition is_pretty (o : opts) : bool :=
  match omode o with PRETTY => true | DEFAULT => false end.

(** printer.py 14-20. *)
Definition pad (s : string) (n : nat) : string :=
  join (nls ++ spaces n) (splitlines s).

(** printer.py 53-69, the loop of [JoinPrinter.to_string]; [idx] is the loop
    index, [total] the number of items, [cur] is [current_length]. *)
Fixpoint join_loop (pretty : bool) (remaining total idx cur : nat)
         (l : list string) : list string :=
  match l with
  | [] => []
  | line :: l' =>
      let needs_comma := if Nat.ltb idx (total - 1) then 1 else 0 in
      let line_length := String.length line + needs_comma in
      if (pretty && Nat.ltb remaining (cur + line_length))%bool then
        ((if Nat.eqb idx 0 then "" else nls) ++ line)
          :: join_loop pretty remaining total (S idx) line_length l'
      else
        line :: join_loop pretty remaining total (S idx) (cur + line_length) l'
  end.

(** printer.py 48-70 without the assertion of line 49. *)
Definition join_core (max_length : nat) (o : opts) (delim : string)
           (l : list string) : string :=
  join delim
    (join_loop (is_pretty o) (max_length - ospaces o) (length l) 0 0 l).

(** printer.py 48-70. *)
Definition join_printer (max_length : nat) (o : opts) (delim : string)
           (l : list string) : result string :=
  let* _ := py_assert (Nat.ltb (ospaces o) max_length) in
  Ok (join_core max_length o delim l).

(** printer.py 23-27 ([max_length] has its default 80); the assertion
    [opts.spaces < 80] is a side condition of the model. *)
Definition join_stmts_d (delim : string) (l : list string) (o : opts) : string :=
  join_core 80 o delim l.
Definition join_stmts (l : list string) (o : opts) : string :=
  join_stmts_d "," l o.

(** printer.py 86, 89-96: [StatementPrinter.add_entry] on the mapping. *)
Definition entries := list (string * string).
Definition add_entry (k v : string) (m : entries) : result entries :=
  match assoc k m with
  | Some _ => Err AssertionError
  | None => Ok (m ++ [(k, v)])%list
  end.

(** printer.py 98-102. *)
Fixpoint add_entries (new m : entries) : result entries :=
  match new with
  | [] => Ok m
  | (k, v) :: new' => let* m' := add_entry k v m in add_entries new' m'
  end.
Definition update (new m : entries) : result entries :=
  if existsb (fun kv => match assoc (fst kv) m with Some _ => true | None => false end) new
  then Err AssertionError
  else add_entries new m.

(** Python [s.rjust(n)]. *)
Definition rjust (n : nat) (s : string) : string :=
  spaces (n - String.length s) ++ s.

Definition max_key (m : entries) : nat :=
  fold_right (fun kv a => Nat.max (String.length (fst kv)) a) 0 m.

(** printer.py 109-125, one line. *)
Definition stmt_line (o : opts) (river : bool) (rpad : nat) (kv : string * string) : string :=
  let '(k, v) := kv in
  let '(k, v) :=
    if is_pretty o then
      if river then
        (rjust rpad k, match v with "" => v | _ => pad v (rpad + 1) end)
      else (k, v)
    else (k, v) in
  match v with "" => k | _ => k ++ " " ++ v end.

(** printer.py 104-128. *)
Definition stmt_to_string (o : opts) (river : bool) (m : entries) : string :=
  join (if is_pretty o then nls else " ")
       (map (stmt_line o river (max_key m)) m).
