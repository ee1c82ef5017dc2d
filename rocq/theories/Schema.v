(** Model of treeno/datatypes/resolve.py and of the schemas and [resolve]
    methods of treeno/relation.py.

    [resolve] changes the object it is called on; here it returns the changed
    object.  Sets of names are lists of which only membership is used.

    Simplified: a [Table] has no [_column_schema] attribute, that is, only
    tables for which it is the default (relation.py 573-583: no columns) are
    modelled, and two tables are equal when their qualified names are. *)
From Coq Require Import String List ZArith Bool.
From Verif Require Import PyStr Types Functions Ast Walk.
Import ListNotations.
Open Scope string_scope.
Open Scope list_scope.

(** relation.py 115-131 [SchemaField]. *)
Record sfield := mkF { f_name : option string; f_source : node; f_type : dtype }.
(** relation.py 135-181 [Schema]. *)
Record schema := mkS { s_fields : list sfield; s_ids : list string }.
(** relation.py 153-155. *)
Definition empty_schema : schema := mkS [] [].

(** [identifier()] of a relation: relation.py 85-95, 602-603, 776-777. *)
Definition rel_id (e : node) : option string :=
  match e with
  | NTable n _ _ => Some n
  | NAliasedRel _ a _ => Some a
  | _ => None
  end.
(** [identifier()] of a value: expression.py 153-162, 252-253, 284-285, 358-359. *)
Definition value_id (e : node) : option string :=
  match e with
  | NField n _ _ => Some n
  | NAliased _ a => Some a
  | NVar n => Some n
  | _ => None
  end.

(** * Equality of schema fields *)
Definition opt_eqb {A} (eq : A -> A -> bool) (a b : option A) : bool :=
  match a, b with
  | None, None => true
  | Some x, Some y => eq x y
  | _, _ => false
  end.
Fixpoint list_eqb {A} (eq : A -> A -> bool) (a b : list A) : bool :=
  match a, b with
  | [], [] => true
  | x :: r, y :: s => (eq x y && list_eqb eq r s)%bool
  | _, _ => false
  end.
Definition name_eqb : option string -> option string -> bool := opt_eqb String.eqb.
Definition join_type_eqb (a b : join_type) : bool :=
  match a, b with
  | JInner, JInner | JLeft, JLeft | JRight, JRight | JOuter, JOuter | JCross, JCross => true
  | _, _ => false
  end.
Definition sample_type_eqb (a b : sample_type) : bool :=
  match a, b with Bernoulli, Bernoulli | System, System => true | _, _ => false end.
(** attrs compares attributes in order and stops at the first difference. *)
Definition and_then (r : result bool) (k : result bool) : result bool :=
  let* b := r in if b then k else Ok false.
(** [==] of two join criteria: that of the constraints is an [Equal] object, which
    counts as true (expression.py 129-130). *)
Definition crit_eqb (a b : option (jcrit node)) : bool :=
  match a, b with
  | None, None => true
  | Some (JUsing l), Some (JUsing m) => list_eqb String.eqb l m
  | Some (JOn _), Some (JOn _) => true
  | _, _ => false
  end.
(** [bool(a == b)] of two relations.  Relations other than queries have the
    equality of attrs (classes must agree, then attributes in order).  A query is a
    value (relation.py 184-185), for which [==] builds an [Equal] object
    (expression.py 129-130): it counts as true, unless the other side is no value and
    wrap_literal raises (expression.py 414-425, inference.py 36-39). *)
Fixpoint rel_eq (a b : node) {struct a} : result bool :=
  if (is_query a || is_query b)%bool then
    if (is_value a && is_value b)%bool then Ok true else Err NotImplementedError
  else
    match a, b with
    | NTable n s c, NTable n' s' c' =>
        Ok (String.eqb n n' && name_eqb s s' && name_eqb c c')%bool
    | NAliasedRel r al cs, NAliasedRel r' al' cs' =>
        and_then (rel_eq r r') (Ok (String.eqb al al' && list_eqb String.eqb cs cs')%bool)
    | NJoin l r jt nat c, NJoin l' r' jt' nat' c' =>
        and_then (rel_eq l l')
          (and_then (rel_eq r r')
             (Ok (join_type_eqb jt jt' && Bool.eqb nat nat' && crit_eqb c c')%bool))
    | NUnnest vs o, NUnnest vs' o' =>
        Ok (Nat.eqb (length vs) (length vs') && Bool.eqb o o')%bool
    | NLateral q, NLateral q' => rel_eq q q'
    | NSample r st _, NSample r' st' _ => and_then (rel_eq r r') (Ok (sample_type_eqb st st'))
    | _, _ => Ok false
    end.
(** [bool(a == b)] of two schema fields (relation.py 114: attr.s). *)
Definition sfield_eq (a b : sfield) : result bool :=
  if name_eqb (f_name a) (f_name b) then
    and_then (rel_eq (f_source a) (f_source b)) (Ok (dtype_eqb (f_type a) (f_type b)))
  else Ok false.
(** [f in fields]. *)
Fixpoint sfield_in (f : sfield) (l : list sfield) : result bool :=
  match l with
  | [] => Ok false
  | g :: r => let* b := sfield_eq g f in if b then Ok true else sfield_in f r
  end.
(** relation.py 177-179. *)
Fixpoint merge_fields (acc l : list sfield) : result (list sfield) :=
  match l with
  | [] => Ok acc
  | f :: r => let* b := sfield_in f acc in merge_fields (if b then acc else acc ++ [f]) r
  end.
(** relation.py 157-181. *)
Definition merge (a b : schema) : result schema :=
  let* fs := merge_fields (s_fields a) (s_fields b) in
  Ok (mkS fs (s_ids a ++ s_ids b)).

(** * Columns of expressions: treeno/datatypes/resolve.py *)

(** resolve.py 39-47: the only one, or an AssertionError. *)
Definition the_type (l : list sfield) : result dtype :=
  match l with [f] => Ok (f_type f) | _ => Err AssertionError end.
Definition from_table (t : string) (f : sfield) : bool := name_eqb (rel_id (f_source f)) (Some t).
(** resolve.py 14-48.  An expression as table that is not a query has no hash
    (expression.py 76, 129), so that looking it up raises a TypeError as soon as there is
    a column to compare with. *)
Definition make_field (sc : schema) (name : string) (tr : tref node) (t : dtype) : result node :=
  let unqualified :=
    match filter (fun f => name_eqb (f_name f) (Some name)) (s_fields sc) with
    | [] => Ok (NField name tr t)
    | l => let* d := the_type l in Ok (NField name tr d)
    end in
  match tr with
  | TRNone | TRVal NNone => unqualified
  | TRStr tb =>
      match (if mem tb (s_ids sc) then s_fields sc else []) with
      | [] => Ok (NField name tr t)
      | l => let* d := the_type (filter (from_table tb) l) in Ok (NField name tr d)
      end
  | TRVal v =>
      if is_query v then Err NotImplementedError
      else match s_fields sc with [] => Ok (NField name tr t) | _ => Err TypeError end
  end.
(** [f.source.identifier() == star.table] for an expression as table: an [Equal]
    object, which counts as true, or wrap_literal(None) raising (expression.py 414-421). *)
Definition from_value (v : node) (f : sfield) : result bool :=
  if is_value v then
    match rel_id (f_source f) with Some _ => Ok true | None => Err ValueError end
  else Ok false.
(** resolve.py 51-60. *)
Definition make_star (sc : schema) (tr : tref node) (t : dtype) : result node :=
  let star l := Ok (NStar tr (TRow (map f_type l))) in
  match tr with
  | TRNone | TRVal NNone => star (s_fields sc)
  | TRStr tb => star (filter (from_table tb) (s_fields sc))
  | TRVal v =>
      if is_query v then Err NotImplementedError
      else
        let* l := each (fun f => let* b := from_value v f in Ok (if b then [f] else [])) (s_fields sc) in
        star (concat l)
  end.
(** resolve.py 63-84.  Evolving a table passes [_column_schema] under a name
    its constructor does not take (a TypeError).  Evolving a VALUES query starts its data type
    from the old one (relation.py 691-696); here it is computed anew. *)
Fixpoint resolve_fields (sc : schema) (e : node) : result node :=
  match e with
  | NNone => Ok NNone
  | NField n tr t => make_field sc n tr t
  | NStar tr t => make_star sc tr t
  | NTable _ _ _ => Err TypeError
  | _ => let* e' := node_each (resolve_fields sc) e in mk e'
  end.

(** * Relations: the [resolve] methods of treeno/relation.py *)

(** relation.py 1113-1127 [maybe_prune_schema]. *)
Definition maybe_prune (e : node) (sc : schema) : schema :=
  if is_query e then empty_schema else sc.
(** relation.py 213-232 [_resolve_with]. *)
Definition resolve_with (f : schema -> node -> result (schema * node)) : schema -> list node -> result (schema * list node) :=
  fix go (acc : schema) (l : list node) : result (schema * list node) :=
    match l with
    | [] => Ok (acc, [])
    | w :: r =>
        let* (sc, w') := f acc w in
        let* acc' := merge acc sc in
        let* (res, r') := go acc' r in
        Ok (res, w' :: r')
    end.
(** relation.py 764-772: [column_aliases[idx] if column_aliases else name]. *)
Fixpoint rename (cols : list string) (l : list sfield) (src : node) : result (list sfield) :=
  match l, cols with
  | [], _ => Ok []
  | f :: r, c :: cs => let* r' := rename cs r src in Ok (mkF (Some c) src (f_type f) :: r')
  | _ :: _, [] => Err IndexError
  end.
Definition resource (src : node) (f : sfield) : sfield := mkF (f_name f) src (f_type f).
(** relation.py 483-492: a field of the output. *)
Definition output (src v : node) : result sfield :=
  let* t := data_type v in Ok (mkF (value_id v) src t).

(** The schema and the changed relation.  Anything that is no relation has no
    [resolve] method. *)
Fixpoint resolve (sc : schema) (e : node) {struct e} : result (schema * node) :=
  match e with
  | NTable n _ _ => (* 587-600 *)
      if mem n (s_ids sc)
      then Ok (mkS (filter (from_table n) (s_fields sc)) [n], e)
      else Ok (mkS [] [n], e)
  | NAliasedRel r a cols => (* 760-774 *)
      let* (rs, r') := resolve (maybe_prune r sc) r in
      let e' := NAliasedRel r' a cols in
      let* fs := match cols with
                 | [] => Ok (map (resource e') (s_fields rs))
                 | _ => rename cols (s_fields rs) e'
                 end in
      Ok (mkS fs [a], e')
  | NJoin l r jt nat c => (* 938-950 *)
      let* (ls, l') := resolve (maybe_prune l sc) l in
      let* sc' := merge sc ls in
      let* (rs, r') := resolve (maybe_prune r sc') r in
      let* res := merge ls rs in
      Ok (res, NJoin l' r' jt nat c)
  | NUnnest vs o => (* 1000-1014 *)
      let* vs' := each (resolve_fields sc) vs in
      let e' := NUnnest vs' o in
      let* t := data_type e' in
      Ok (mkS (match t with TRow ts => map (mkF None e') ts | _ => [] end) [], e')
  | NLateral q => (* 1034-1036 *)
      let* (qs, q') := resolve sc q in Ok (qs, NLateral q')
  | NSample r st p => (* 1086-1088 *)
      let* (rs, r') := resolve sc r in Ok (rs, NSample r' st p)
  | NSelect sel fr wh gb hv d ws qa => (* 471-493 *)
      let 'mkQ wi ob off lim := qa in
      let* e' :=
        match fr with
        | None => Ok e
        | Some f =>
            let* (wsc, wi') := resolve_with resolve empty_schema wi in
            let* ex := merge sc wsc in
            let* (fs, f') := resolve (maybe_prune f ex) f in
            let* sel' := each (resolve_fields fs) sel in
            Ok (NSelect sel' (Some f') wh gb hv d ws (mkQ wi' ob off lim))
        end in
      let* fs := each (output e') (match e' with NSelect s _ _ _ _ _ _ _ => s | _ => [] end) in
      Ok (mkS fs [], e')
  | NSetQuery op l r d qa => (* 323-337 *)
      let* (ls, l') := resolve (maybe_prune l sc) l in
      let* (_, r') := resolve (maybe_prune r sc) r in
      let e' := NSetQuery op l' r' d qa in
      Ok (mkS (map (resource e') (s_fields ls)) (s_ids ls), e')
  | NTableQuery t qa => (* 640-646 *)
      let 'mkQ wi ob off lim := qa in
      let* (wsc, wi') := resolve_with resolve empty_schema wi in
      let* (ts, t') := resolve wsc t in
      Ok (ts, NTableQuery t' (mkQ wi' ob off lim))
  | NValues _ _ => Err TypeError (* 707-711: the set of names is missing *)
  | _ => Err AttributeError
  end.
