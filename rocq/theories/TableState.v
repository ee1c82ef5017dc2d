(** Model of the memory of tables: treeno/relation.py 544-603, [Table] with its attribute
    [_column_schema], which [resolve] changes.  Other attributes of a table play no part. *)
From Coq Require Import String List ZArith Bool Arith.
From Verif Require Import PyStr Types Functions Ast Walk Schema.
Import ListNotations.
Open Scope nat_scope.
Open Scope string_scope.
Open Scope list_scope.

(** The [Schema] objects a program has made, and its tables: each has a name and refers to
    one of these objects or to an object of its own. *)
Record store := mkStore { given : list schema; tables : list (string * (nat + schema)) }.
(** What a program does: [Table(name, column_schema=...)] with one of the schema objects or
    with the default, and [table.resolve(existing_schema)]. *)
Inductive action := Create (n : string) (src : option nat) | Ask (t : nat) (sc : schema).

Fixpoint set_nth {A} (i : nat) (x : A) (l : list A) : list A :=
  match l, i with
  | [], _ => []
  | _ :: r, O => x :: r
  | a :: r, S j => a :: set_nth j x r
  end.
(** relation.py 581-582: the name is added to the set in place. *)
Definition add_id (n : string) (s : schema) : schema :=
  if mem n (s_ids s) then s else mkS (s_fields s) (s_ids s ++ [n]).
(** relation.py 573-582.  The default is a new empty schema. *)
Definition create (n : string) (src : option nat) (st : store) : store :=
  match src with
  | None => mkStore (given st) (tables st ++ [(n, inr (add_id n empty_schema))])
  | Some r =>
      mkStore (match nth_error (given st) r with Some s => set_nth r (add_id n s) (given st) | None => given st end)
              (tables st ++ [(n, inl r)])
  end.
Definition look (st : store) (m : nat + schema) : schema :=
  match m with inl r => nth r (given st) empty_schema | inr s => s end.
(** relation.py 587-600. *)
Definition ask (t : nat) (sc : schema) (st : store) : store * option schema :=
  match nth_error (tables st) t with
  | None => (st, None)
  | Some (n, m) =>
      if mem n (s_ids sc)
      then let s := mkS (filter (from_table n) (s_fields sc)) [n] in
           (mkStore (given st) (set_nth t (n, inr s) (tables st)), Some s)
      else (st, Some (look st m))
  end.
Definition act (st : store) (a : action) : store :=
  match a with Create n src => create n src st | Ask t sc => fst (ask t sc st) end.
Definition run (h : list action) (gs : list schema) : store := fold_left act h (mkStore gs []).
