(** The objects of treeno/expression.py, relation.py, window.py, groupby.py,
    orderby.py and treeno/functions, and what their constructors check and
    compute. *)
From Coq Require Import String List ZArith Bool.
From Verif Require Import PyStr Types Conversions Inference TypeParser Functions.
Import ListNotations.
Open Scope string_scope.

(** * Parts that are not nodes by themselves, parametrized by the node type.

    Python's [None] and an empty list behave the same for [orderby], [with_],
    [window], [partitions] and [column_aliases] (every use tests truth), so the
    model has lists only. *)

(** The [table] attribute of a [Field] or [Star] (expression.py 246, 305). *)
Inductive tref (A : Type) := TRNone | TRStr (s : string) | TRVal (v : A).
Arguments TRNone {A}. Arguments TRStr {A} s. Arguments TRVal {A} v.

(** orderby.py 33-37 [OrderTerm]. *)
Record order (A : Type) := mkOrder { o_value : A; o_desc : bool; o_nulls_first : bool }.
Arguments mkOrder {A}. Arguments o_value {A}. Arguments o_desc {A}. Arguments o_nulls_first {A}.

(** window.py 33-79: frame types and frame bounds. *)
Inductive frame_type := FTRange | FTRows | FTGroups.
Inductive bound (A : Type) :=
| BBounded (following : bool) (offset : A)
| BUnbounded (following : bool)
| BCurrent.
Arguments BBounded {A}. Arguments BUnbounded {A}. Arguments BCurrent {A}.

(** window.py 86-96 [Window]. *)
Record window (A : Type) := mkWindow {
  w_parent : option string;
  w_orderby : list (order A);
  w_partitions : list A;
  w_frame : frame_type;
  w_start : bound A;
  w_end : bound A }.
Arguments mkWindow {A}. Arguments w_parent {A}. Arguments w_orderby {A}.
Arguments w_partitions {A}. Arguments w_frame {A}. Arguments w_start {A}. Arguments w_end {A}.
(** [Window()] (window.py 78-96). *)
Definition default_window {A} : window A :=
  mkWindow None [] [] FTRange (BUnbounded false) BCurrent.

(** The keyword-only attributes of an aggregate function (aggregate.py 38-43);
    [fo_ignore]: the null treatment is IGNORE. *)
Record fopts (A : Type) := mkFopts {
  fo_orderby : list (order A);
  fo_filter : option A;
  fo_window : option (window A);
  fo_ignore : bool }.
Arguments mkFopts {A}. Arguments fo_orderby {A}. Arguments fo_filter {A}.
Arguments fo_window {A}. Arguments fo_ignore {A}.
Definition no_fopts {A} : fopts A := mkFopts [] None None false.

(** The keyword-only attributes of a query (relation.py 191-195). *)
Record qattrs (A : Type) := mkQ {
  q_with : list A;
  q_orderby : list (order A);
  q_offset : option Z;
  q_limit : option Z }.
Arguments mkQ {A}. Arguments q_with {A}. Arguments q_orderby {A}.
Arguments q_offset {A}. Arguments q_limit {A}.
Definition no_qattrs {A} : qattrs A := mkQ [] [] None None.

(** groupby.py 37-102. *)
Inductive group (A : Type) :=
| GSet (l : list A)
| GSets (ll : list (list A))
| GCube (l : list A)
| GRollup (l : list A).
Arguments GSet {A}. Arguments GSets {A}. Arguments GCube {A}. Arguments GRollup {A}.
(** groupby.py 15-20. *)
Record groupby (A : Type) := mkG { g_groups : list (group A); g_distinct : bool }.
Arguments mkG {A}. Arguments g_groups {A}. Arguments g_distinct {A}.

(** relation.py 783-788, 806-870. *)
Inductive join_type := JInner | JLeft | JRight | JOuter | JCross.
Inductive jcrit (A : Type) := JUsing (cols : list string) | JOn (c : A).
Arguments JUsing {A}. Arguments JOn {A}.

(** relation.py 256-411. *)
Inductive set_op := OpIntersect | OpExcept | OpUnion.
(** relation.py 1042-1045. *)
Inductive sample_type := Bernoulli | System.
(** string.py 19-23. *)
Inductive normal_form := NFD | NFC | NFKD | NFKC.

(** Unary and binary operator classes of expression.py. *)
Inductive unop := UPos | UNeg | UNot | UIsNull.
Inductive binop :=
| BAdd | BMinus | BMul | BDiv | BMod
| BEq | BNe | BGt | BGe | BLt | BLe
| BAnd | BOr | BDistinct.

(** * Nodes

    [NNone] is Python's [None] in a place where an object is expected (several
    visitors return it).  Attributes that the constructor computes from the
    others ([data_type] of most classes) are not stored. *)
Inductive node :=
| NNone
| NLit (l : lit) (t : dtype)                               (* Literal *)
| NField (name : string) (table : tref node) (t : dtype)   (* Field *)
| NAliased (v : node) (alias : string)                     (* AliasedValue *)
| NStar (table : tref node) (t : dtype)                    (* Star *)
| NAliasedStar (star : node) (aliases : list string)       (* AliasedStar *)
| NVar (name : string)                                     (* Lambda.Variable *)
| NLambda (vars : list string) (body : node)               (* Lambda *)
| NUn (op : unop) (v : node)
| NBin (op : binop) (l r : node)
| NBetween (v lo hi : node)
| NArray (vs : list node)
| NInQuery (v q : node)
| NInList (v : node) (vs : list node)
| NLike (v pat : node) (esc : option node)
| NTypeCtor (value type_name : string)                     (* TypeConstructor *)
| NRow (vs : list node)                                    (* RowConstructor *)
| NInterval (value from_ : string) (to : option string)
| NCast (try_ : bool) (v : node) (t : dtype)               (* Cast, TryCast *)
| NSubscript (v i : node)
| NCase (branches : list (node * node)) (else_ value : option node)
| NFunc (f : fn) (args : list node) (fo : fopts node)      (* functions *)
| NDateTime (f : fn) (precision : Z)                       (* datetime.py 40-85 *)
| NListAgg (v : node) (sep : string) (overflow : option (bool * string))
           (orderby : list (order node))                   (* aggregate.py 222-271; bool: WITH COUNT *)
| NNormalize (v : node) (form : option normal_form)        (* string.py 263-287 *)
| NSelect (select : list node) (from_ wh : option node) (gb : option (groupby node))
          (having : option node) (distinct : bool)
          (windows : list (string * window node)) (qa : qattrs node)
| NSetQuery (op : set_op) (l r : node) (distinct : bool) (qa : qattrs node)
| NTableQuery (table : node) (qa : qattrs node)
| NValues (exprs : list node) (qa : qattrs node)
| NTable (name : string) (schema catalog : option string)
| NAliasedRel (rel : node) (alias : string) (cols : list string)
| NJoin (l r : node) (jt : join_type) (natural : bool) (crit : option (jcrit node))
| NUnnest (arrays : list node) (ordinality : bool)
| NLateral (q : node)
| NSample (rel : node) (st : sample_type) (percentage : node).

(** [isinstance(x, Query)]. *)
Definition is_query (e : node) : bool :=
  match e with
  | NSelect _ _ _ _ _ _ _ _ | NSetQuery _ _ _ _ _ | NTableQuery _ _ | NValues _ _ => true
  | _ => false
  end.
(** [isinstance(x, Value)] (relation.py 185: a query is a value as well). *)
Definition is_value (e : node) : bool :=
  match e with
  | NNone | NTable _ _ _ | NAliasedRel _ _ _ | NJoin _ _ _ _ _ | NUnnest _ _ | NLateral _
  | NSample _ _ _ => false
  | _ => true
  end.
Definition is_none (e : node) : bool := match e with NNone => true | _ => false end.
Definition is_star (e : node) : bool := match e with NStar _ _ => true | _ => false end.
Definition is_field (e : node) : bool := match e with NField _ _ _ => true | _ => false end.

(** [bool(s)] of an optional text. *)
Definition truthy (o : option string) : bool :=
  match o with None | Some "" => false | Some _ => true end.

Fixpoint distinct_names (l : list string) : bool :=
  match l with
  | [] => true
  | x :: r => (negb (mem x r) && distinct_names r)%bool
  end.

(** * Construction: checks and [data_type]

    [check e] is [Err x] if building [e] (bottom up) raises [x]; [Ok (Some t)]
    if [e] has a [data_type] [t]; [Ok None] if it has no such attribute. *)
Definition tyof (r : result (option dtype)) : result dtype :=
  match r with
  | Ok (Some t) => Ok t
  | Ok None => Err AttributeError
  | Err x => Err x
  end.
(** expression.py 414-425 [wrap_literal] applied to an object. *)
Definition wrapped (e : node) (r : result (option dtype)) : result dtype :=
  match e with NNone => Err ValueError | _ => tyof r end.
(** [f] on every element in order, stopping at the first exception.  (As
    [map_result], in the form that allows recursion through it.) *)
Definition each {A B} (f : A -> result B) : list A -> result (list B) :=
  fix each (l : list A) : result (list B) :=
    match l with
    | [] => Ok []
    | a :: r => let* b := f a in let* bs := each r in Ok (b :: bs)
    end.
Definition opt_ok {A} (f : A -> result unit) (o : option A) : result unit :=
  match o with None => Ok tt | Some a => f a end.
Definition all_ok {A} (f : A -> result unit) (l : list A) : result unit :=
  let* _ := each f l in Ok tt.

Definition order_ok {A} (f : A -> result unit) (o : order A) : result unit :=
  let 'mkOrder v _ _ := o in f v.
(** window.py 49-53: the offset is wrapped. *)
Definition bound_ok {A} (w : A -> result unit) (b : bound A) : result unit :=
  match b with BBounded _ v => w v | _ => Ok tt end.
Definition window_ok {A} (f w : A -> result unit) (x : window A) : result unit :=
  let 'mkWindow _ ob ps _ s e := x in
  let* _ := all_ok (order_ok f) ob in
  let* _ := all_ok f ps in
  let* _ := bound_ok w s in
  bound_ok w e.
Definition fopts_ok {A} (f w : A -> result unit) (x : fopts A) : result unit :=
  let 'mkFopts ob fi wi _ := x in
  let* _ := all_ok (order_ok f) ob in
  let* _ := opt_ok f fi in
  opt_ok (window_ok f w) wi.
Definition qattrs_ok {A} (f : A -> result unit) (x : qattrs A) : result unit :=
  let 'mkQ wi ob _ _ := x in
  let* _ := all_ok f wi in
  all_ok (order_ok f) ob.
(** groupby.py 62-67, 85-90, 107-112. *)
Definition nonempty {A} (l : list A) : bool := match l with [] => false | _ => true end.
Definition group_ok {A} (f : A -> result unit) (g : group A) : result unit :=
  match g with
  | GSet l => all_ok f l
  | GSets ll => let* _ := all_ok (all_ok f) ll in py_assert (nonempty ll)
  | GCube l | GRollup l => let* _ := all_ok f l in py_assert (nonempty l)
  end.
Definition groupby_ok {A} (f : A -> result unit) (g : groupby A) : result unit :=
  let 'mkG gs _ := g in all_ok (group_ok f) gs.
Definition tref_ok {A} (f : A -> result unit) (t : tref A) : result unit :=
  match t with TRVal v => f v | _ => Ok tt end.
Definition jcrit_ok {A} (f : A -> result unit) (j : jcrit A) : result unit :=
  match j with JOn c => f c | JUsing _ => Ok tt end.

(** No keyword argument given. *)
Definition fopts_empty {A} (x : fopts A) : bool :=
  match x with mkFopts [] None None false => true | _ => false end.

(** expression.py 862-876. *)
Definition type_ctor_type (value name : string) : result dtype :=
  let generic :=
    let* r := mk_datatype name [] in
    match canon r with Some t => Ok t | None => Err NotModelled end in
  let* _ := if String.eqb name "TIMESTAMP"
            then timestamp (Some (infer_timelike_precision value)) false
            else Ok unknown in
  if String.eqb name "TIME" then time (Some (infer_timelike_precision value)) false
  else if String.eqb name "DECIMAL" then Err NotModelled
  else if String.eqb name "CHAR" then Ok (TChar (zlen value))
  else generic.

(** expression.py 537-546. *)
Definition minus_type (a b : dtype) : result dtype :=
  let* t := get_arithmetic_type a b in
  let datelike x := mem (type_name x) ["TIMESTAMP"; "DATE"] in
  if ((datelike a && datelike b)
      || (String.eqb (type_name a) "TIME" && String.eqb (type_name b) "TIME"))%bool
  then Ok (TInterval DayToSecond) else Ok t.

Definition binop_type (op : binop) (a b : dtype) : result dtype :=
  match op with
  | BAdd | BMul | BDiv | BMod => get_arithmetic_type a b
  | BMinus => minus_type a b
  | _ => Ok boolean
  end.
Definition unop_type (op : unop) (a : dtype) : dtype :=
  match op with UPos | UNeg => a | UNot | UIsNull => boolean end.

Definition some {A} (r : result A) : result (option A) := let* a := r in Ok (Some a).

(** relation.py 475-479. *)
Definition select_type (ts : list dtype) : dtype :=
  match ts with [t] => t | _ => TRow ts end.

(** aggregate.py 193-203. *)
Definition count_ok (f : fn) (args : list node) (fo : fopts node) : bool :=
  match f, args with
  | FCount, [NStar _ _] => (negb (nonempty (fo_orderby fo)) && negb (fo_ignore fo))%bool
  | _, _ => true
  end.

Fixpoint check (e : node) : result (option dtype) :=
  let sub x := let* _ := check x in Ok tt in
  let wsub x := let* _ := wrapped x (check x) in Ok tt in
  match e with
  | NNone => Ok None
  | NLit l t => (* expression.py 208-213 *)
      let* _ := py_assert (match l with LNone => true | _ => negb (is_unknown t) end) in
      Ok (Some t)
  | NField _ tr t | NStar tr t => (* 248-251, 307-310 *)
      let* _ := tref_ok sub tr in
      let* _ := py_assert (match tr with TRVal v => negb (is_field v) | _ => true end) in
      Ok (Some t)
  | NAliased v _ => (* 278-282 *)
      let r := check v in
      let* _ := py_assert (negb (is_star v)) in
      some (tyof r)
  | NAliasedStar s _ => some (tyof (check s)) (* 334-335 *)
  | NVar _ => Ok (Some unknown)
  | NLambda vars b => (* 368-369 *)
      let* _ := sub b in
      let* _ := py_assert (distinct_names vars) in
      Ok (Some unknown)
  | NUn op v => let* t := wrapped v (check v) in Ok (Some (unop_type op t))
  | NBin op l r =>
      let* a := wrapped l (check l) in
      let* b := wrapped r (check r) in
      some (binop_type op a b)
  | NBetween v lo hi =>
      let* _ := wsub v in
      let* _ := wsub lo in
      let* _ := wsub hi in Ok (Some boolean)
  | NArray vs => (* 758-762 *)
      let* ts := each (fun x => wrapped x (check x)) vs in
      match ts with
      | [] => Err AssertionError
      | t :: _ => Ok (Some (TArray t))
      end
  | NInQuery v q =>
      let* _ := wsub v in
      let* _ := sub q in Ok (Some boolean)
  | NInList v vs =>
      let* _ := wsub v in
      let* _ := all_ok wsub vs in Ok (Some boolean)
  | NLike v p esc =>
      let* _ := wsub v in
      let* _ := wsub p in
      let* _ := opt_ok wsub esc in Ok (Some boolean)
  | NTypeCtor value name => some (type_ctor_type value name)
  | NRow vs => (* 895-896 *)
      let* ts := each (fun x => tyof (check x)) vs in Ok (Some (TRow ts))
  | NInterval _ f _ => (* 914-924 *)
      if (String.eqb f "YEAR" || String.eqb f "MONTH")%bool then Ok (Some (TInterval YearToMonth))
      else let* _ := py_assert (mem f ["DAY"; "HOUR"; "MINUTE"; "SECOND"]) in
           Ok (Some (TInterval DayToSecond))
  | NCast _ v t => (* 938-941, 954-957 *)
      let* _ := wsub v in
      let* _ := py_assert (negb (is_unknown t)) in
      Ok (Some t)
  | NSubscript v i => (* 967-969; no type is computed *)
      let* _ := sub v in
      let* _ := wsub i in Ok (Some unknown)
  | NCase bs el v => (* 981-1022 *)
      let* ts := each (fun cv => let '(c, x) := cv in
                                       let* _ := wrapped c (check c) in
                                       wrapped x (check x)) bs in
      let* _ := opt_ok wsub el in
      let* _ := opt_ok wsub v in
      match ts with
      | [] => Err AssertionError
      | t :: _ => Ok (Some t)
      end
  | NFunc f args fo => (* functions/*.py, the constructors *)
      let* ts := each (fun x => wrapped x (check x)) args in
      let* _ := fopts_ok sub wsub fo in
      if fn_special f then Err NotModelled
      else if negb (arity_ok f (length args)) then Err TypeError
      else if (negb (is_aggregate f) && negb (fopts_empty fo))%bool then Err AssertionError
      else
        let* _ := py_assert (count_ok f args fo) in
        some (fn_type f ts)
  | NDateTime f p => (* datetime.py 57-85 *)
      match f with
      | FCurrentTime | FLocalTime => some (time (Some p) false)
      | FCurrentTimestamp | FLocalTimestamp => some (timestamp (Some p) false)
      | _ => Err NotModelled
      end
  | NListAgg v _ _ ob => (* aggregate.py 232-244 *)
      let* _ := wsub v in
      let* _ := all_ok (order_ok sub) ob in
      let* _ := py_assert (nonempty ob) in
      Ok (Some varchar_unbounded)
  | NNormalize v _ => let* _ := wsub v in Ok (Some varchar_unbounded)
  | NSelect sel fr wh gb hv _ ws qa => (* relation.py 469-479 *)
      let* ts := each (fun x => tyof (check x)) sel in
      let* _ := opt_ok sub fr in
      let* _ := opt_ok sub wh in
      let* _ := opt_ok (groupby_ok sub) gb in
      let* _ := opt_ok sub hv in
      let* _ := all_ok (fun nw => let '(_, w) := nw in window_ok sub wsub w) ws in
      let* _ := qattrs_ok sub qa in
      let* _ := py_assert (nonempty sel) in
      Ok (Some (select_type ts))
  | NSetQuery op l r distinct qa => (* relation.py 277-311, 362-365, 388-391 *)
      match op with
      | OpUnion =>
          let* a := tyof (check l) in
          let* b := tyof (check r) in
          let* _ := qattrs_ok sub qa in
          some (set_type a b)
      | _ =>
          let* _ := sub l in
          let* _ := sub r in
          let* _ := qattrs_ok sub qa in
          let* _ := py_assert distinct in
          Ok (Some unknown)
      end
  | NTableQuery t qa => (* relation.py 627-633: the schema of a table always has an id *)
      let* _ := sub t in
      let* _ := qattrs_ok sub qa in
      match t with
      | NTable _ _ _ => Ok (Some unknown)
      | _ => Err AttributeError
      end
  | NValues es qa => (* relation.py 691-696 *)
      let* ts := each (fun x => tyof (check x)) es in
      let* _ := qattrs_ok sub qa in
      some (values_type ts)
  | NTable _ s c => (* relation.py 576-580 *)
      let* _ := py_assert (negb (truthy c) || truthy s)%bool in Ok None
  | NAliasedRel r _ _ => let* _ := sub r in Ok None
  | NJoin l r jt nat c => (* relation.py 893-900 *)
      let* _ := sub l in
      let* _ := sub r in
      let* _ := opt_ok (jcrit_ok sub) c in
      let has := match c with Some _ => true | None => false end in
      let* _ := py_assert (negb (match jt with JCross => true | _ => false end && has)) in
      let* _ := py_assert (negb (has && nat)) in
      Ok None
  | NUnnest vs _ => (* relation.py 980-991 *)
      let* ts := each (fun x => tyof (check x)) vs in
      Ok (Some (TRow (map (fun t => match t with TArray u => u | _ => unknown end) ts)))
  | NLateral q => let* _ := sub q in Ok None
  | NSample r _ p =>
      let* _ := sub r in
      let* _ := sub p in Ok None
  end.

(** Build the object, or raise what its constructor raises. *)
Definition mk (e : node) : result node := let* _ := check e in Ok e.
(** The [data_type] attribute. *)
Definition data_type (e : node) : result dtype := tyof (check e).
