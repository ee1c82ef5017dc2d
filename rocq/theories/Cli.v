(** Model of the commands of treeno/cli.py that do not draw trees. *)
From Coq Require Import String List ZArith Bool.
From Verif Require Import PyStr Printer Types TypeParser Functions Ast Sql Parser Schema.
Import ListNotations.
Open Scope string_scope.

(** cli.py 24-27 [SqlConstruct]. *)
Inductive construct := CQuery | CExpression | CType.
(** What [get_sql_object] returns: a type is no node of the model. *)
Inductive sql_object := ONode (e : node) | OType (t : rawdt).
(** cli.py 30-42 [get_sql_object]: a query is resolved, which changes it. *)
Definition get_query (en : env) (s : string) : result node :=
  let* q := query_from_sql en s in
  let* (_, q') := resolve empty_schema q in
  Ok q'.
Definition get_sql_object (en : env) (c : construct) (s : string) : result sql_object :=
  match c with
  | CQuery => let* q := get_query en s in Ok (ONode q)
  | CExpression => let* e := expression_from_sql en s in Ok (ONode e)
  | CType => let* t := type_from_sql s in Ok (OType t)
  end.
(** cli.py 45-48 [format], with the text it writes as result.  base.py 56-60: pretty mode
    with four spaces; types.py 113-137: a type ignores the options. *)
Definition pretty : opts := mkOpts PRETTY 4.
Definition object_text (x : sql_object) : result string :=
  match x with
  | ONode e => to_sql pretty e
  | OType t => raw_sql t
  end.
Definition format (en : env) (c : construct) (s : string) : result string :=
  let* x := get_sql_object en c s in object_text x.

(** cli.py 113-135 [schema]: the lines it writes, without the colour codes that are
    put around an unknown type.  The query is resolved a second time.  It is the
    field and not its name that is compared with None, so that a column without a
    name has the name None (122-126). *)
Definition schema_line (f : sfield) : string :=
  (match f_name f with Some n => n | None => "None" end) ++ " - "
  ++ (if is_unknown (f_type f) then "<unknown>" else type_sql (f_type f)).
Definition schema_lines (en : env) (s : string) : result (list string) :=
  let* q := get_query en s in
  let* (sc, _) := resolve empty_schema q in
  match s_fields sc with
  | [] => Ok ["Unknown schema"]
  | fs => Ok (map schema_line fs)
  end.
