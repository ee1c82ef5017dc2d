(** The command [tree] of treeno/cli.py: [_should_skip], [treeify].

    Only the tree itself is modelled, not how nltk draws it.  The attributes of
    an object and their order are those of [asdict] in Equals.v.

    Simplified: after [resolve] a set query of Python keeps the data type that it
    had when it was built (relation.py 279-280, 319-336), while the model shows the
    one of its resolved parts. *)
From Coq Require Import String List ZArith Bool.
From Verif Require Import PyStr Types Inference Functions Ast Equals Cli.
Import ListNotations.
Open Scope nat_scope.
Open Scope string_scope.
Open Scope list_scope.

(** [nltk.tree.Tree(label, children)]; a child that is no tree is a text. *)
Inductive tree := Leaf (s : string) | Tree (label : string) (children : list tree).
(** [Tree(k, t)] takes the elements of [t] (a tree is a list of its children, a
    text a list of characters, which does not happen here). *)
Definition children_of (t : tree) : list tree := match t with Leaf _ => [] | Tree _ l => l end.

(** cli.py 90-94: the attributes that are not skipped. *)
Fixpoint entries (l : list (string * option tree)) : list tree :=
  match l with
  | [] => []
  | (k, Some t) :: r => Tree k [t] :: entries r
  | (_, None) :: r => entries r
  end.
Definition object (cls : string) (l : list (string * option tree)) : tree := Tree cls (entries l).

(** * Values of attributes; [None] for those that are skipped (cli.py 65-75) *)
Definition t_text (s : string) : option tree := Some (Leaf s).
Definition t_int (z : Z) : option tree := t_text (str_of_Z z).
(** Python [str] of a bool. *)
Definition t_bool (b : bool) : option tree := t_text (if b then "True" else "False").
Definition t_opt {A} (f : A -> option tree) (o : option A) : option tree :=
  match o with None => None | Some a => f a end.
(** cli.py 73-74, 79-82. *)
Definition t_list {A} (f : A -> tree) (l : list A) : option tree :=
  match l with [] => None | _ => Some (Tree "<list>" (map f l)) end.
(** cli.py 71-72: the member of a [DefaultableEnum] that is its default is skipped. *)
Definition t_flag (b : bool) (name : string) : option tree := if b then t_text name else None.

(** Python [str] of the value of a literal. *)
Definition t_lit (l : lit) : option tree :=
  match l with
  | LNone => None
  | LBool b => t_bool b
  | LInt z => t_int z
  | LDec d => t_text (dec_str d)
  | LStr s => t_text s
  | LFloat r => t_text r
  end.
(** cli.py 88-89: [str] of a type is its text (base.py). *)
Definition t_type (t : dtype) : option tree := t_text (type_sql t).

(** In what follows [f] is [treeify] and [o] the same for an attribute, which is
    skipped if it is [None]. *)
(** orderby.py 33-37. *)
Definition t_order {A} (o : A -> option tree) (x : order A) : tree :=
  let 'mkOrder v d n := x in
  object "OrderTerm" [("value", o v); ("order_type", t_flag d "OrderType.DESC");
                      ("null_order", t_flag n "NullOrder.FIRST")].
(** window.py 40-76. *)
Definition t_dir (following : bool) : option tree :=
  t_text (if following then "BoundType.FOLLOWING" else "BoundType.PRECEDING").
Definition t_bound {A} (o : A -> option tree) (b : bound A) : tree :=
  match b with
  | BBounded d v => object "BoundedFrameBound" [("bound_type", t_dir d); ("offset", o v)]
  | BUnbounded d => object "UnboundedFrameBound" [("bound_type", t_dir d)]
  | BCurrent => object "CurrentFrameBound" []
  end.
(** window.py 30-37. *)
Definition t_frame (t : frame_type) : option tree :=
  match t with
  | FTRange => None | FTRows => t_text "FrameType.ROWS" | FTGroups => t_text "FrameType.GROUPS"
  end.
(** window.py 86-96. *)
Definition t_window {A} (f : A -> tree) (o : A -> option tree) (w : window A) : tree :=
  let 'mkWindow p ob ps fr s e := w in
  object "Window" [("parent_window", t_opt t_text p); ("orderby", t_list (t_order o) ob);
                   ("partitions", t_list f ps); ("frame_type", t_frame fr);
                   ("start_bound", Some (t_bound o s)); ("end_bound", Some (t_bound o e))].
(** aggregate.py 38-43. *)
Definition t_fopts {A} (f : A -> tree) (o : A -> option tree) (fo : fopts A) : list (string * option tree) :=
  let 'mkFopts ob fi wi ig := fo in
  [("orderby", t_list (t_order o) ob); ("filter_", t_opt o fi);
   ("window", t_opt (fun w => Some (t_window f o w)) wi);
   ("null_treatment", t_flag ig "NullTreatment.IGNORE")].
(** relation.py 189-197. *)
Definition t_qattrs {A} (f : A -> tree) (o : A -> option tree) (q : qattrs A) : list (string * option tree) :=
  let 'mkQ wi ob off lim := q in
  [("offset", t_opt t_int off); ("limit", t_opt t_int lim);
   ("orderby", t_list (t_order o) ob); ("with_", t_list f wi)].
(** groupby.py 15-120. *)
Definition t_group {A} (f : A -> tree) (g : group A) : tree :=
  match g with
  | GSet l => object "GroupingSet" [("values", t_list f l)]
  | GCube l => object "Cube" [("values", t_list f l)]
  | GRollup l => object "Rollup" [("values", t_list f l)]
  | GSets ll =>
      object "GroupingSetList" [("groups", t_list (fun l => object "GroupingSet" [("values", t_list f l)]) ll)]
  end.
(** base.py 156-164: the default is ALL, also where DISTINCT is the default of the attribute. *)
Definition t_quantifier (distinct : bool) : option tree := t_flag distinct "SetQuantifier.DISTINCT".
Definition t_groupby {A} (f : A -> tree) (g : groupby A) : tree :=
  let 'mkG gs d := g in
  object "GroupBy" [("groups", t_list (t_group f) gs); ("groupby_quantifier", t_quantifier d)].
(** relation.py 783-882. *)
Definition t_join_type (t : join_type) : option tree :=
  t_text (match t with JInner => "JoinType.INNER" | JLeft => "JoinType.LEFT"
                     | JRight => "JoinType.RIGHT" | JOuter => "JoinType.OUTER"
                     | JCross => "JoinType.CROSS" end).
Definition t_crit {A} (o : A -> option tree) (c : jcrit A) : tree :=
  match c with
  | JUsing cols => object "JoinUsingCriteria" [("column_names", t_list Leaf cols)]
  | JOn x => object "JoinOnCriteria" [("constraint", o x)]
  end.
(** expression.py 246, 305. *)
Definition t_tref {A} (o : A -> option tree) (t : tref A) : option tree :=
  match t with TRNone => None | TRStr s => t_text s | TRVal v => o v end.
(** expression.py 979-1009. *)
Definition t_branch {A} (o : A -> option tree) (cv : A * A) : tree :=
  let '(c, x) := cv in object "When" [("condition", o c); ("value", o x)].
Definition t_else {A} (o : A -> option tree) (x : A) : tree := object "Else" [("value", o x)].
(** cli.py 83-87: a dict of windows. *)
Definition t_named {A} (f : A -> tree) (o : A -> option tree) (nw : string * window A) : tree :=
  let '(n, w) := nw in Tree n (children_of (t_window f o w)).
(** aggregate.py 205-214. *)
Definition t_overflow (cf : bool * string) : tree :=
  let '(c, fl) := cf in
  object "OverflowFiller"
    [("count_indication", t_text (if c then "CountIndication.WITH_COUNT" else "CountIndication.WITHOUT_COUNT"));
     ("filler", t_text fl)].
(** string.py 19-23. *)
Definition t_form (n : normal_form) : option tree :=
  t_text (match n with NFD => "NormalForm.NFD" | NFC => "NormalForm.NFC"
                     | NFKD => "NormalForm.NFKD" | NFKC => "NormalForm.NFKC" end).

(** The arguments of a function under the names of its attributes; attributes
    without an argument are [None]. *)
Fixpoint t_named_args (names : list string) (vals : list (option tree)) : list (string * option tree) :=
  match names, vals with
  | [], _ => []
  | k :: r, [] => (k, None) :: t_named_args r []
  | k :: r, v :: s => (k, v) :: t_named_args r s
  end.
Definition t_args {A} (f : A -> tree) (o : A -> option tree) (g : fn) (args : list A) : list (string * option tree) :=
  if fn_variadic g then [("values", t_list f args)] else t_named_args (fn_attrs g) (map o args).

(** * Names of classes *)
Definition fn_class (f : fn) : string :=
  match f with
  | FSum => "Sum" | FArbitrary => "Arbitrary" | FArrayAgg => "ArrayAgg" | FAvg => "Avg"
  | FBoolAnd => "BoolAnd" | FBoolOr => "BoolOr" | FChecksum => "Checksum"
  | FCount => "Count" | FCountIf => "CountIf" | FEvery => "Every"
  | FGeometricMean => "GeometricMean" | FListAgg => "ListAgg" | FMax => "Max"
  | FMaxBy => "MaxBy" | FMin => "Min" | FMinBy => "MinBy"
  | FBitwiseAndAgg => "BitwiseAndAgg" | FBitwiseOrAgg => "BitwiseOrAgg"
  | FHistogram => "Histogram" | FMapAgg => "MapAgg" | FMapUnion => "MapUnion"
  | FMultiMapAgg => "MultiMapAgg" | FApproxDistinct => "ApproxDistinct"
  | FApproxMostFrequent => "ApproxMostFrequent" | FApproxPercentile => "ApproxPercentile"
  | FApproxSet => "ApproxSet" | FMerge => "Merge" | FNumericHistogram => "NumericHistogram"
  | FQDigestAgg => "QDigestAgg" | FTDigestAgg => "TDigestAgg" | FCorr => "Corr"
  | FCovarPop => "CovarPop" | FCovarSamp => "CovarSamp" | FKurtosis => "Kurtosis"
  | FRegrIntercept => "RegrIntercept" | FRegrSlope => "RegrSlope" | FSkewness => "Skewness"
  | FStdDev => "StdDev" | FStdDevPop => "StdDevPop" | FStdDevSamp => "StdDevSamp"
  | FVariance => "Variance" | FVarPop => "VarPop" | FVarSamp => "VarSamp"
  | FConcatenate => "Concatenate" | FIf => "If" | FCoalesce => "Coalesce"
  | FNullIf => "NullIf" | FTry => "Try" | FCurrentDate => "CurrentDate"
  | FCurrentTime => "CurrentTime" | FCurrentTimestamp => "CurrentTimestamp"
  | FLocalTime => "LocalTime" | FLocalTimestamp => "LocalTimestamp" | FDate => "Date"
  | FLastDayOfMonth => "LastDayOfMonth" | FFromISO8601Timestamp => "FromISO8601Timestamp"
  | FFromISO8601TimestampNanos => "FromISO8601TimestampNanos"
  | FFromISO8601Date => "FromISO8601Date" | FAtTimezone => "AtTimezone"
  | FWithTimezone => "WithTimezone" | FFromUnixtime => "FromUnixtime"
  | FFromUnixtimeNanos => "FromUnixtimeNanos" | FNow => "Now" | FToISO8601 => "ToISO8601"
  | FToMilliseconds => "ToMilliseconds" | FToUnixtime => "ToUnixtime"
  | FDateTrunc => "DateTrunc" | FDateAdd => "DateAdd" | FDateDiff => "DateDiff"
  | FParseDuration => "ParseDuration" | FHumanReadableSeconds => "HumanReadableSeconds"
  | FPower => "Power" | FCurrentUser => "CurrentUser" | FCurrentCatalog => "CurrentCatalog"
  | FCurrentSchema => "CurrentSchema" | FCurrentPath => "CurrentPath" | FChr => "Chr"
  | FCodePoint => "CodePoint" | FHammingDistance => "HammingDistance" | FLength => "Length"
  | FLevenshteinDistance => "LevenshteinDistance" | FLower => "Lower" | FLPad => "LPad"
  | FLTrim => "LTrim" | FLuhnCheck => "LuhnCheck" | FReplace => "Replace"
  | FReverse => "Reverse" | FRPad => "RPad" | FRTrim => "RTrim" | FSoundex => "Soundex"
  | FNormalize => "Normalize" | FToUTF8 => "ToUTF8" | FFromUTF8 => "FromUTF8"
  end.
Definition class_name (c : cls) : string :=
  match c with
  | CNone => "NoneType" | CLiteral => "Literal" | CField => "Field" | CAliasedValue => "AliasedValue"
  | CStar => "Star" | CAliasedStar => "AliasedStar" | CVariable => "Variable" | CLambda => "Lambda"
  | CUn UPos => "Positive" | CUn UNeg => "Negative" | CUn UNot => "Not" | CUn UIsNull => "IsNull"
  | CBin BAdd => "Add" | CBin BMinus => "Minus" | CBin BMul => "Multiply" | CBin BDiv => "Divide"
  | CBin BMod => "Modulus" | CBin BEq => "Equal" | CBin BNe => "NotEqual" | CBin BGt => "GreaterThan"
  | CBin BGe => "GreaterThanOrEqual" | CBin BLt => "LessThan" | CBin BLe => "LessThanOrEqual"
  | CBin BAnd => "And" | CBin BOr => "Or" | CBin BDistinct => "DistinctFrom"
  | CBetween => "Between" | CArray => "Array" | CInQuery => "InQuery" | CInList => "InList"
  | CLike => "Like" | CTypeCtor => "TypeConstructor" | CRow => "RowConstructor"
  | CInterval => "Interval" | CCast false => "Cast" | CCast true => "TryCast"
  | CSubscript => "Subscript" | CCase => "Case" | CFn f => fn_class f
  | CSelect => "SelectQuery" | CSet OpIntersect => "IntersectQuery" | CSet OpExcept => "ExceptQuery"
  | CSet OpUnion => "UnionQuery" | CTableQuery => "TableQuery" | CValues => "ValuesQuery"
  | CTable => "Table" | CAliasedRel => "AliasedRelation" | CJoin => "Join" | CUnnest => "Unnest"
  | CLateral => "Lateral" | CSample => "TableSample"
  end.

(** cli.py 78-95 [treeify] of an object that is no type; [treeify(None)] is the text None. *)
Fixpoint treeify (e : node) : tree :=
  let o x := match x with NNone => None | _ => Some (treeify x) end in
  let ty := ("data_type", match data_type e with Ok t => t_type t | Err _ => None end) in
  let obj := object (class_name (class_of e)) in
  match e with
  | NNone => Leaf "None"
  | NLit l _ => obj [ty; ("value", t_lit l)]
  | NField n tr _ => obj [ty; ("name", t_text n); ("table", t_tref o tr)]
  | NAliased v a => obj [ty; ("value", o v); ("alias", t_text a)]
  | NStar tr _ => obj [ty; ("table", t_tref o tr)]
  | NAliasedStar s al => obj [ty; ("star", o s); ("aliases", t_list Leaf al)]
  | NVar n => obj [ty; ("name", t_text n)]
  | NLambda vs b =>
      obj [ty; ("inputs", t_list (fun n => object "Variable" [("data_type", t_type unknown); ("name", t_text n)]) vs);
           ("expr", o b)]
  | NUn _ v => obj [ty; ("value", o v)]
  | NBin _ l r => obj [ty; ("left", o l); ("right", o r)]
  | NBetween v lo hi => obj [ty; ("value", o v); ("lower", o lo); ("upper", o hi)]
  | NArray vs => obj [ty; ("values", t_list treeify vs)]
  | NInQuery v q => obj [ty; ("value", o v); ("query", o q)]
  | NInList v vs => obj [ty; ("value", o v); ("exprs", t_list treeify vs)]
  | NLike v p es => obj [ty; ("value", o v); ("pattern", o p); ("escape", t_opt o es)]
  | NTypeCtor v n => obj [ty; ("value", t_text v); ("type_name", t_text n)]
  | NRow vs => obj [ty; ("values", t_list treeify vs)]
  | NInterval v f t =>
      obj [ty; ("value", t_text v); ("from_interval", t_text f); ("to_interval", t_opt t_text t)]
  | NCast _ v _ => obj [ty; ("expr", o v)]
  | NSubscript v i => obj [ty; ("value", o v); ("index", o i)]
  | NCase bs el v =>
      obj [ty; ("branches", t_list (t_branch o) bs); ("else_", t_opt (fun x => Some (t_else o x)) el);
           ("value", t_opt o v)]
  | NFunc f args fo =>
      if is_aggregate f then obj (ty :: t_fopts treeify o fo ++ t_args treeify o f args)
      else obj (ty :: t_args treeify o f args)
  | NDateTime _ p => obj [ty; ("precision", t_int p)]
  | NListAgg v sep ov ob =>
      obj (ty :: t_fopts treeify o (mkFopts ob None None false)
           ++ [("value", o v); ("separator", t_text sep);
               ("overflow_filler", t_opt (fun x => Some (t_overflow x)) ov)])
  | NNormalize v nf => obj [ty; ("string", o v); ("normal_form", t_opt t_form nf)]
  | NSelect sel fr wh gb hv d ws qa =>
      obj (ty :: t_qattrs treeify o qa
           ++ [("select", t_list treeify sel); ("from_", t_opt o fr); ("where", t_opt o wh);
               ("groupby", t_opt (fun g => Some (t_groupby treeify g)) gb); ("having", t_opt o hv);
               ("select_quantifier", t_quantifier d);
               ("window", match ws with [] => None
                          | _ => Some (Tree "<dict>" (map (t_named treeify o) ws)) end)])
  | NSetQuery _ l r d qa =>
      obj (ty :: t_qattrs treeify o qa
           ++ [("left_query", o l); ("right_query", o r); ("set_quantifier", t_quantifier d)])
  | NTableQuery t qa => obj (ty :: t_qattrs treeify o qa ++ [("table", o t)])
  | NValues es qa => obj (ty :: t_qattrs treeify o qa ++ [("exprs", t_list treeify es)])
  | NTable n s c => (* 66-68: [_column_schema] is hidden *)
      obj [("name", t_text n); ("schema", t_opt t_text s); ("catalog", t_opt t_text c)]
  | NAliasedRel r a cols =>
      obj [("relation", o r); ("alias", t_text a); ("column_aliases", t_list Leaf cols)]
  | NJoin l r jt nat c =>
      obj [("left_relation", o l); ("right_relation", o r);
           ("config", Some (object "JoinConfig" [("join_type", t_join_type jt); ("natural", t_bool nat);
                                                 ("criteria", t_opt (fun x => Some (t_crit o x)) c)]))]
  | NUnnest vs or => obj [("arrays", t_list treeify vs); ("with_ordinality", t_bool or)]
  | NLateral q => obj [("subquery", o q)]
  | NSample r st p =>
      obj [("relation", o r);
           ("sample_type", t_text (match st with Bernoulli => "SampleType.BERNOULLI"
                                               | System => "SampleType.SYSTEM" end));
           ("percentage", o p)]
  end.

(** cli.py 98-110 [tree]: a text has no method [pretty_print] (nor [draw]). *)
Definition treeify_object (x : sql_object) : result tree :=
  match x with
  | ONode e => Ok (treeify e)
  | OType t => let* s := raw_sql t in Ok (Leaf s)
  end.
Definition tree_command (en : env) (c : construct) (s : string) : result tree :=
  let* x := get_sql_object en c s in
  let* t := treeify_object x in
  match t with Leaf _ => Err AttributeError | Tree _ _ => Ok t end.
