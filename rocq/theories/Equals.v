(** [Sql.equals]: treeno/base.py 129-146.

    [attr.asdict] (attrs, not part of /repo) turns an object into a dict from
    the names of its attributes to their values, and does the same to every
    attrs object inside it, also below lists and dicts.  The class of an inner
    object is not kept.  Two dicts are equal if they have the same keys with
    equal values; no two classes declare the same attribute names in different
    orders, so dicts are compared here as lists of pairs. *)
From Coq Require Import String List ZArith QArith Qreduction Bool.
From Verif Require Import PyStr Types Inference Functions Ast.
Import ListNotations.
Open Scope nat_scope.
Open Scope string_scope.
Open Scope list_scope.

(** What [asdict] returns and what is inside it.  Python's numbers ([bool],
    [int], [Decimal]) are equal if their values are; a number is carried in
    lowest terms.  A [float] is carried as its [repr] and equal only to a float
    with the same text (simplified: [1.0 == 1] is not modelled). *)
Inductive dval :=
| DNone
| DStr (s : string)
| DNum (q : Q)
| DFloat (repr : string)
| DEnum (name : string)
| DList (l : list dval)
| DDict (l : list (string * dval)).

Fixpoint dval_eqb (a b : dval) {struct a} : bool :=
  match a, b with
  | DNone, DNone => true
  | DStr s, DStr s' => String.eqb s s'
  | DNum q, DNum q' => (Z.eqb (Qnum q) (Qnum q') && Pos.eqb (Qden q) (Qden q'))%bool
  | DFloat s, DFloat s' => String.eqb s s'
  | DEnum s, DEnum s' => String.eqb s s'
  | DList l, DList l' =>
      (fix go (l l' : list dval) {struct l} : bool :=
         match l, l' with
         | [], [] => true
         | x :: r, x' :: r' => (dval_eqb x x' && go r r')%bool
         | _, _ => false
         end) l l'
  | DDict l, DDict l' =>
      (fix go (l l' : list (string * dval)) {struct l} : bool :=
         match l, l' with
         | [], [] => true
         | (k, x) :: r, (k', x') :: r' => (String.eqb k k' && dval_eqb x x' && go r r')%bool
         | _, _ => false
         end) l l'
  | _, _ => false
  end.

Definition d_int (z : Z) : dval := DNum (Qmake z 1).
Definition d_bool (b : bool) : dval := d_int (if b then 1 else 0)%Z.
Definition d_opt {A} (f : A -> dval) (o : option A) : dval :=
  match o with None => DNone | Some a => f a end.
(** A list attribute whose default is [None]; the model does not tell [None]
    from the empty list. *)
Definition d_list {A} (f : A -> dval) (l : list A) : dval :=
  match l with [] => DNone | _ => DList (map f l) end.

(** The value of a [Decimal]. *)
Definition dec_value (d : dec) : Q :=
  let c := (if dneg d then - Z.of_N (dcoef d) else Z.of_N (dcoef d))%Z in
  if (0 <=? dexp d)%Z then Qmake (c * 10 ^ dexp d) 1
  else Qred (Qmake c (Z.to_pos (10 ^ (- dexp d)))).
Definition d_lit (l : lit) : dval :=
  match l with
  | LNone => DNone
  | LBool b => d_bool b
  | LInt z => d_int z
  | LDec d => DNum (dec_value d)
  | LStr s => DStr s
  | LFloat r => DFloat r
  end.

(** datatypes/types.py 67-76 [DataType]: attributes [type_name], [parameters]. *)
Fixpoint d_type (t : dtype) : dval :=
  let mk name ps := DDict [("type_name", DStr name); ("parameters", DDict ps)] in
  let opt k o := match o with None => [] | Some z => [(k, d_int z)] end in
  match t with
  | TSimple s => mk (simple_name s) []
  | TDecimal p s => mk "DECIMAL" [("precision", d_int p); ("scale", d_int s)]
  | TVarchar m => mk "VARCHAR" (opt "max_chars" m)
  | TChar m => mk "CHAR" [("max_chars", d_int m)]
  | TTime p z => mk "TIME" (opt "precision" p ++ [("timezone", d_bool z)])
  | TTimestamp p z => mk "TIMESTAMP" (opt "precision" p ++ [("timezone", d_bool z)])
  | TInterval k => mk "INTERVAL" [("from_interval", DStr (iv_from k)); ("to_interval", DStr (iv_to k))]
  | TArray t => mk "ARRAY" [("dtype", d_type t)]
  | TMap k v => mk "MAP" [("from_dtype", d_type k); ("to_dtype", d_type v)]
  | TRow l => mk "ROW" [("dtypes", DList (map d_type l))]
  | TQdigest t => mk "QDIGEST" [("dtype", d_type t)]
  end.

(** The names of the positional attributes of the functions (functions/*.py). *)
Definition fn_attrs (f : fn) : list string :=
  match f with
  | FMax | FMin => ["value"; "num_values"]
  | FMaxBy => ["value"; "max_by"; "num_values"]
  | FMinBy => ["value"; "min_by"; "num_values"]
  | FMapAgg | FMultiMapAgg => ["key"; "value"]
  | FApproxDistinct => ["key"; "epsilon"]
  | FApproxMostFrequent => ["buckets"; "value"; "capacity"]
  | FApproxPercentile => ["value"; "percentage"; "weight"]
  | FNumericHistogram => ["buckets"; "value"; "weight"]
  | FQDigestAgg => ["value"; "weight"; "accuracy"]
  | FTDigestAgg => ["value"; "weight"]
  | FCorr | FCovarPop | FCovarSamp | FKurtosis | FRegrIntercept | FRegrSlope => ["y"; "x"]
  | FIf => ["condition"; "true_value"; "false_value"]
  | FNullIf => ["value1"; "value2"]
  | FTry => ["expr"]
  | FAtTimezone | FWithTimezone => ["value"; "zone"]
  | FFromUnixtime => ["value"; "zone"; "hours"; "minutes"]
  | FDateTrunc => ["unit"; "value"]
  | FDateAdd => ["unit"; "value"; "timestamp"]
  | FDateDiff => ["unit"; "timestamp1"; "timestamp2"]
  | FPower => ["x"; "p"]
  | FChr => ["number"]
  | FHammingDistance | FLevenshteinDistance => ["string1"; "string2"]
  | FLPad | FRPad => ["string"; "size"; "pad_string"]
  | FReplace => ["string"; "search"; "replace"]
  | FFromUTF8 => ["binary"; "replace"]
  | FCodePoint | FLength | FLower | FLTrim | FLuhnCheck | FReverse | FRTrim | FSoundex
  | FToUTF8 => ["string"]
  | FCurrentDate | FNow | FCurrentUser | FCurrentCatalog | FCurrentSchema | FCurrentPath => []
  | _ => ["value"]
  end.
(** [Concatenate] and [Coalesce] take any number of arguments and keep them in
    one list (common.py 75-77, conditional.py 44-46). *)
Definition fn_variadic (f : fn) : bool :=
  match f with FConcatenate | FCoalesce => true | _ => false end.
(** Attributes without an argument hold their default [None]. *)
Fixpoint named_args (names : list string) (vals : list dval) : list (string * dval) :=
  match names, vals with
  | [], _ => []
  | k :: r, [] => (k, DNone) :: named_args r []
  | k :: r, v :: s => (k, v) :: named_args r s
  end.
Definition fn_args (f : fn) (vals : list dval) : list (string * dval) :=
  if fn_variadic f then [("values", DList vals)] else named_args (fn_attrs f) vals.

(** orderby.py 33-37. *)
Definition d_order {A} (f : A -> dval) (o : order A) : dval :=
  let 'mkOrder v d n := o in
  DDict [("value", f v);
         ("order_type", DEnum (if d then "OrderType.DESC" else "OrderType.ASC"));
         ("null_order", DEnum (if n then "NullOrder.FIRST" else "NullOrder.LAST"))].
(** window.py 40-96. *)
Definition d_dir (following : bool) : dval :=
  DEnum (if following then "BoundType.FOLLOWING" else "BoundType.PRECEDING").
Definition d_bound {A} (f : A -> dval) (b : bound A) : dval :=
  match b with
  | BBounded d v => DDict [("bound_type", d_dir d); ("offset", f v)]
  | BUnbounded d => DDict [("bound_type", d_dir d)]
  | BCurrent => DDict []
  end.
Definition d_frame (t : frame_type) : dval :=
  DEnum (match t with FTRange => "FrameType.RANGE" | FTRows => "FrameType.ROWS"
                    | FTGroups => "FrameType.GROUPS" end).
Definition d_window {A} (f : A -> dval) (w : window A) : dval :=
  let 'mkWindow p ob ps fr s e := w in
  DDict [("parent_window", d_opt DStr p); ("orderby", d_list (d_order f) ob);
         ("partitions", d_list f ps); ("frame_type", d_frame fr);
         ("start_bound", d_bound f s); ("end_bound", d_bound f e)].
(** aggregate.py 38-43. *)
Definition d_fopts {A} (f : A -> dval) (fo : fopts A) : list (string * dval) :=
  let 'mkFopts ob fi wi ig := fo in
  [("orderby", d_list (d_order f) ob); ("filter_", d_opt f fi); ("window", d_opt (d_window f) wi);
   ("null_treatment", DEnum (if ig then "NullTreatment.IGNORE" else "NullTreatment.RESPECT"))].
(** relation.py 189-197. *)
Definition d_qattrs {A} (f : A -> dval) (q : qattrs A) : list (string * dval) :=
  let 'mkQ wi ob off lim := q in
  [("offset", d_opt d_int off); ("limit", d_opt d_int lim);
   ("orderby", d_list (d_order f) ob); ("with_", d_list f wi)].
(** groupby.py 37-120. *)
Definition d_group {A} (f : A -> dval) (g : group A) : dval :=
  match g with
  | GSet l | GCube l | GRollup l => DDict [("values", DList (map f l))]
  | GSets ll => DDict [("groups", DList (map (fun l => DDict [("values", DList (map f l))]) ll))]
  end.
Definition d_quantifier (distinct : bool) : dval :=
  DEnum (if distinct then "SetQuantifier.DISTINCT" else "SetQuantifier.ALL").
Definition d_groupby {A} (f : A -> dval) (g : groupby A) : dval :=
  let 'mkG gs d := g in
  DDict [("groups", DList (map (d_group f) gs)); ("groupby_quantifier", d_quantifier d)].
(** relation.py 804-882. *)
Definition d_join_type (t : join_type) : dval :=
  DEnum (match t with JInner => "JoinType.INNER" | JLeft => "JoinType.LEFT"
                    | JRight => "JoinType.RIGHT" | JOuter => "JoinType.OUTER"
                    | JCross => "JoinType.CROSS" end).
Definition d_crit {A} (f : A -> dval) (c : jcrit A) : dval :=
  match c with
  | JUsing cols => DDict [("column_names", DList (map DStr cols))]
  | JOn x => DDict [("constraint", f x)]
  end.
Definition d_tref {A} (f : A -> dval) (t : tref A) : dval :=
  match t with TRNone => DNone | TRStr s => DStr s | TRVal v => f v end.
(** expression.py 979-1009. *)
Definition d_branch {A} (f : A -> dval) (cv : A * A) : dval :=
  let '(c, x) := cv in DDict [("condition", f c); ("value", f x)].
Definition d_else {A} (f : A -> dval) (x : A) : dval := DDict [("value", f x)].
(** aggregate.py 205-207. *)
Definition d_counts (with_ : bool) : dval :=
  DEnum (if with_ then "CountIndication.WITH_COUNT" else "CountIndication.WITHOUT_COUNT").
Definition d_named {A} (f : A -> dval) (nw : string * window A) : string * dval :=
  let '(n, w) := nw in (n, d_window f w).

(** A dict of named windows: the order of the names does not matter, so they are
    put in the order of the alphabet. *)
Fixpoint insert_key (kv : string * dval) (l : list (string * dval)) : list (string * dval) :=
  match l with
  | [] => [kv]
  | kv' :: r => if String.leb (fst kv) (fst kv') then kv :: l else kv' :: insert_key kv r
  end.
Definition sort_keys (l : list (string * dval)) : list (string * dval) := fold_right insert_key [] l.

(** The attribute [data_type] of a value (expression.py 79-98). *)
Definition d_data_type (e : node) : string * dval :=
  ("data_type", match data_type e with Ok t => d_type t | Err _ => DNone end).

(** attr.asdict of a node.  The attributes of a base class come first.  The
    schema that a table remembers is the default one (relation.py 571-580). *)
Fixpoint asdict (e : node) : dval :=
  let ty := d_data_type e in
  match e with
  | NNone => DNone
  | NLit l _ => DDict [ty; ("value", d_lit l)]
  | NField n tr _ => DDict [ty; ("name", DStr n); ("table", d_tref asdict tr)]
  | NAliased v a => DDict [ty; ("value", asdict v); ("alias", DStr a)]
  | NStar tr _ => DDict [ty; ("table", d_tref asdict tr)]
  | NAliasedStar s al => DDict [ty; ("star", asdict s); ("aliases", DList (map DStr al))]
  | NVar n => DDict [ty; ("name", DStr n)]
  | NLambda vs b =>
      DDict [ty; ("inputs", DList (map (fun n => DDict [("data_type", d_type unknown); ("name", DStr n)]) vs));
             ("expr", asdict b)]
  | NUn _ v => DDict [ty; ("value", asdict v)]
  | NBin _ l r => DDict [ty; ("left", asdict l); ("right", asdict r)]
  | NBetween v lo hi => DDict [ty; ("value", asdict v); ("lower", asdict lo); ("upper", asdict hi)]
  | NArray vs => DDict [ty; ("values", DList (map asdict vs))]
  | NInQuery v q => DDict [ty; ("value", asdict v); ("query", asdict q)]
  | NInList v vs => DDict [ty; ("value", asdict v); ("exprs", DList (map asdict vs))]
  | NLike v p es => DDict [ty; ("value", asdict v); ("pattern", asdict p); ("escape", d_opt asdict es)]
  | NTypeCtor v n => DDict [ty; ("value", DStr v); ("type_name", DStr n)]
  | NRow vs => DDict [ty; ("values", DList (map asdict vs))]
  | NInterval v f t =>
      DDict [ty; ("value", DStr v); ("from_interval", DStr f); ("to_interval", d_opt DStr t)]
  | NCast _ v _ => DDict [ty; ("expr", asdict v)]
  | NSubscript v i => DDict [ty; ("value", asdict v); ("index", asdict i)]
  | NCase bs el v =>
      DDict [ty; ("branches", DList (map (d_branch asdict) bs)); ("else_", d_opt (d_else asdict) el);
             ("value", d_opt asdict v)]
  | NFunc f args fo =>
      if is_aggregate f
      then DDict (ty :: d_fopts asdict fo ++ fn_args f (map asdict args))
      else DDict (ty :: fn_args f (map asdict args))
  | NDateTime _ p => DDict [ty; ("precision", d_int p)]
  | NListAgg v sep ov ob =>
      DDict (ty :: d_fopts asdict (mkFopts ob None None false)
             ++ [("value", asdict v); ("separator", DStr sep);
                 ("overflow_filler",
                  d_opt (fun cf => let '(c, fl) := cf in
                           DDict [("count_indication", d_counts c); ("filler", DStr fl)]) ov)])
  | NNormalize v nf =>
      DDict [ty; ("string", asdict v);
             ("normal_form", d_opt (fun n => DEnum (match n with NFD => "NormalForm.NFD"
                | NFC => "NormalForm.NFC" | NFKD => "NormalForm.NFKD" | NFKC => "NormalForm.NFKC" end)) nf)]
  | NSelect sel fr wh gb hv d ws qa =>
      DDict (ty :: d_qattrs asdict qa
             ++ [("select", DList (map asdict sel)); ("from_", d_opt asdict fr);
                 ("where", d_opt asdict wh); ("groupby", d_opt (d_groupby asdict) gb);
                 ("having", d_opt asdict hv); ("select_quantifier", d_quantifier d);
                 ("window", match ws with [] => DNone | _ => DDict (sort_keys (map (d_named asdict) ws)) end)])
  | NSetQuery _ l r d qa =>
      DDict (ty :: d_qattrs asdict qa
             ++ [("left_query", asdict l); ("right_query", asdict r); ("set_quantifier", d_quantifier d)])
  | NTableQuery t qa => DDict (ty :: d_qattrs asdict qa ++ [("table", asdict t)])
  | NValues es qa => DDict (ty :: d_qattrs asdict qa ++ [("exprs", DList (map asdict es))])
  | NTable n s c =>
      DDict [("name", DStr n); ("schema", d_opt DStr s); ("catalog", d_opt DStr c);
             ("_column_schema", DDict [("fields", DList []); ("relation_ids", DList [DStr n])])]
  | NAliasedRel r a cols =>
      DDict [("relation", asdict r); ("alias", DStr a); ("column_aliases", d_list DStr cols)]
  | NJoin l r jt nat c =>
      DDict [("left_relation", asdict l); ("right_relation", asdict r);
             ("config", DDict [("join_type", d_join_type jt); ("natural", d_bool nat);
                               ("criteria", d_opt (d_crit asdict) c)])]
  | NUnnest vs o => DDict [("arrays", DList (map asdict vs)); ("with_ordinality", d_bool o)]
  | NLateral q => DDict [("subquery", asdict q)]
  | NSample r st p =>
      DDict [("relation", asdict r);
             ("sample_type", DEnum (match st with Bernoulli => "SampleType.BERNOULLI"
                                                | System => "SampleType.SYSTEM" end));
             ("percentage", asdict p)]
  end.

(** [type(x)]. *)
Inductive cls :=
| CNone | CLiteral | CField | CAliasedValue | CStar | CAliasedStar | CVariable | CLambda
| CUn (op : unop) | CBin (op : binop) | CBetween | CArray | CInQuery | CInList | CLike
| CTypeCtor | CRow | CInterval | CCast (try_ : bool) | CSubscript | CCase | CFn (f : fn)
| CSelect | CSet (op : set_op) | CTableQuery | CValues | CTable | CAliasedRel | CJoin
| CUnnest | CLateral | CSample.
Definition class_of (e : node) : cls :=
  match e with
  | NNone => CNone | NLit _ _ => CLiteral | NField _ _ _ => CField | NAliased _ _ => CAliasedValue
  | NStar _ _ => CStar | NAliasedStar _ _ => CAliasedStar | NVar _ => CVariable
  | NLambda _ _ => CLambda | NUn op _ => CUn op | NBin op _ _ => CBin op
  | NBetween _ _ _ => CBetween | NArray _ => CArray | NInQuery _ _ => CInQuery
  | NInList _ _ => CInList | NLike _ _ _ => CLike | NTypeCtor _ _ => CTypeCtor | NRow _ => CRow
  | NInterval _ _ _ => CInterval | NCast t _ _ => CCast t | NSubscript _ _ => CSubscript
  | NCase _ _ _ => CCase | NFunc f _ _ | NDateTime f _ => CFn f | NListAgg _ _ _ _ => CFn FListAgg
  | NNormalize _ _ => CFn FNormalize | NSelect _ _ _ _ _ _ _ _ => CSelect
  | NSetQuery op _ _ _ _ => CSet op | NTableQuery _ _ => CTableQuery | NValues _ _ => CValues
  | NTable _ _ _ => CTable | NAliasedRel _ _ _ => CAliasedRel | NJoin _ _ _ _ _ => CJoin
  | NUnnest _ _ => CUnnest | NLateral _ => CLateral | NSample _ _ _ => CSample
  end.
Definition cls_eq_dec (a b : cls) : {a = b} + {a <> b}.
Proof. repeat decide equality. Defined.

(** base.py 129-146, for an object that can be built ([NNone] has no such
    method, and is not a [Sql]). *)
Definition equals (a b : node) : bool :=
  match a, b with
  | NNone, _ | _, NNone => false
  | _, _ => if cls_eq_dec (class_of a) (class_of b) then dval_eqb (asdict a) (asdict b) else false
  end.
