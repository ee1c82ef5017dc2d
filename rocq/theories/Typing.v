(** A specification, stated without [check]: which objects can be built, and
    the [data_type] they get ([None]: the class has no such attribute). *)
From Coq Require Import String List Bool ZArith.
From Verif Require Import PyStr Types TypeParser Inference Conversions Functions Ast Tokens.
Import ListNotations.
Open Scope nat_scope.
Open Scope string_scope.
Open Scope list_scope.

(** The parts of a window: what is only stored, and what is wrapped as a value. *)
Definition window_stored {A} (w : window A) : list A :=
  map o_value (w_orderby w) ++ w_partitions w.
Definition window_values {A} (w : window A) : list A :=
  bound_kids (w_start w) ++ bound_kids (w_end w).

Definition fopts_stored {A} (x : fopts A) : list A :=
  map o_value (fo_orderby x) ++ opt_kids (fo_filter x)
  ++ match fo_window x with None => [] | Some w => window_stored w end.
Definition fopts_values {A} (x : fopts A) : list A :=
  match fo_window x with None => [] | Some w => window_values w end.

(** GROUPING SETS, CUBE and ROLLUP want at least one element. *)
Definition group_filled {A} (g : group A) : Prop :=
  match g with GSet _ => True | GSets ll => ll <> [] | GCube l | GRollup l => l <> [] end.

(** The common type of several rows, from left to right. *)
Inductive common : dtype -> list dtype -> dtype -> Prop :=
| common_end t : common t [] t
| common_first t l u : common t l u -> common unknown (t :: l) u
| common_next a t b l u : a <> unknown -> common_supertype a t = Ok b -> common b l u -> common a (t :: l) u.

(** The type of a UNION; of rows of different length the shorter counts. *)
Inductive union_of : dtype -> dtype -> dtype -> Prop :=
| union_left b : union_of unknown b unknown
| union_right a : union_of a unknown unknown
| union_rows ls rs ts : length ts = Nat.min (length ls) (length rs) ->
    (forall i, i < length ts ->
       common_supertype (nth i ls unknown) (nth i rs unknown) = Ok (nth i ts unknown)) ->
    union_of (TRow ls) (TRow rs) (TRow ts)
| union_plain a b t : a <> unknown -> b <> unknown ->
    (forall l, a <> TRow l) -> (forall l, b <> TRow l) ->
    common_supertype a b = Ok t -> union_of a b t.

Inductive has : node -> option dtype -> Prop :=
| h_none : has NNone None
| h_null t : has (NLit LNone t) (Some t)
| h_lit l t : t <> unknown -> has (NLit l t) (Some t)
| h_field n tr t : Forall (fun x => is_field x = false /\ exists u, has x u) (tref_kids tr) ->
    has (NField n tr t) (Some t)
| h_star tr t : Forall (fun x => is_field x = false /\ exists u, has x u) (tref_kids tr) ->
    has (NStar tr t) (Some t)
| h_aliased v a t : is_star v = false -> has v (Some t) -> has (NAliased v a) (Some t)
| h_aliased_star v a t : has v (Some t) -> has (NAliasedStar v a) (Some t)
| h_var n : has (NVar n) (Some unknown)
| h_lambda vars b u : NoDup vars -> has b u -> has (NLambda vars b) (Some unknown)
| h_sign op v t : op = UPos \/ op = UNeg -> has v (Some t) -> has (NUn op v) (Some t)
| h_test op v t : op = UNot \/ op = UIsNull -> has v (Some t) -> has (NUn op v) (Some boolean)
| h_arith op l r a b t : In op [BAdd; BMul; BDiv; BMod] -> has l (Some a) -> has r (Some b) ->
    get_arithmetic_type a b = Ok t -> has (NBin op l r) (Some t)
| h_minus l r a b t : has l (Some a) -> has r (Some b) -> get_arithmetic_type a b = Ok t ->
    ~ (In (type_name a) ["TIMESTAMP"; "DATE"] /\ In (type_name b) ["TIMESTAMP"; "DATE"]) ->
    ~ (type_name a = "TIME" /\ type_name b = "TIME") ->
    has (NBin BMinus l r) (Some t)
| h_minus_time l r a b t : has l (Some a) -> has r (Some b) -> get_arithmetic_type a b = Ok t ->
    (In (type_name a) ["TIMESTAMP"; "DATE"] /\ In (type_name b) ["TIMESTAMP"; "DATE"])
    \/ (type_name a = "TIME" /\ type_name b = "TIME") ->
    has (NBin BMinus l r) (Some (TInterval DayToSecond))
| h_compare op l r a b : In op [BEq; BNe; BGt; BGe; BLt; BLe; BAnd; BOr; BDistinct] ->
    has l (Some a) -> has r (Some b) -> has (NBin op l r) (Some boolean)
| h_between v a b t u w : has v (Some t) -> has a (Some u) -> has b (Some w) -> has (NBetween v a b) (Some boolean)
| h_array vs t ts : Forall2 (fun x t => has x (Some t)) vs (t :: ts) -> has (NArray vs) (Some (TArray t))
| h_in_query v q t u : has v (Some t) -> has q u -> has (NInQuery v q) (Some boolean)
| h_in_list v l t : has v (Some t) -> Forall (fun x => exists t, has x (Some t)) l ->
    has (NInList v l) (Some boolean)
| h_like v p e t u : has v (Some t) -> has p (Some u) -> Forall (fun x => exists t, has x (Some t)) (opt_kids e) ->
    has (NLike v p e) (Some boolean)
| h_ctor value name t : type_ctor_type value name = Ok t -> has (NTypeCtor value name) (Some t)
| h_row vs ts : Forall2 (fun x t => has x (Some t)) vs ts -> has (NRow vs) (Some (TRow ts))
| h_interval_year value f t : In f ["YEAR"; "MONTH"] -> has (NInterval value f t) (Some (TInterval YearToMonth))
| h_interval_day value f t : In f ["DAY"; "HOUR"; "MINUTE"; "SECOND"] ->
    has (NInterval value f t) (Some (TInterval DayToSecond))
| h_cast try_ v t u : t <> unknown -> has v (Some u) -> has (NCast try_ v t) (Some t)
| h_subscript v i u t : has v u -> has i (Some t) -> has (NSubscript v i) (Some unknown)
| h_case bs el v t ts :
    Forall (fun x => exists t, has x (Some t)) (map fst bs) ->
    Forall2 (fun x t => has x (Some t)) (map snd bs) (t :: ts) ->
    Forall (fun x => exists t, has x (Some t)) (opt_kids el ++ opt_kids v) ->
    has (NCase bs el v) (Some t)
| h_func f args fo ts t :
    Forall2 (fun x t => has x (Some t)) args ts ->
    Forall (fun x => exists u, has x u) (fopts_stored fo) ->
    Forall (fun x => exists u, has x (Some u)) (fopts_values fo) ->
    fn_special f = false -> arity_ok f (length args) = true ->
    (is_aggregate f = true \/ fopts_empty fo = true) ->
    (f = FCount -> forall tr t, args = [NStar tr t] -> fo_orderby fo = [] /\ fo_ignore fo = false) ->
    fn_type f ts = Ok t ->
    has (NFunc f args fo) (Some t)
| h_time f p t : In f [FCurrentTime; FLocalTime] -> time (Some p) false = Ok t -> has (NDateTime f p) (Some t)
| h_timestamp f p t : In f [FCurrentTimestamp; FLocalTimestamp] -> timestamp (Some p) false = Ok t ->
    has (NDateTime f p) (Some t)
| h_listagg v sep ov ob t : ob <> [] -> has v (Some t) -> Forall (fun x => exists u, has x u) (map o_value ob) ->
    has (NListAgg v sep ov ob) (Some varchar_unbounded)
| h_normalize v f t : has v (Some t) -> has (NNormalize v f) (Some varchar_unbounded)
| h_select sel fr wh gb hv d ws qa ts :
    sel <> [] -> Forall2 (fun x t => has x (Some t)) sel ts ->
    Forall (fun x => exists u, has x u)
      (opt_kids fr ++ opt_kids wh ++ match gb with None => [] | Some g => groupby_kids g end ++ opt_kids hv
       ++ concat (map (fun nw => window_stored (snd nw)) ws) ++ qattrs_kids qa) ->
    Forall (fun x => exists u, has x (Some u)) (concat (map (fun nw => window_values (snd nw)) ws)) ->
    match gb with None => True | Some (mkG gs _) => Forall group_filled gs end ->
    has (NSelect sel fr wh gb hv d ws qa) (Some (match ts with [t] => t | _ => TRow ts end))
| h_union l r d qa a b t : has l (Some a) -> has r (Some b) -> Forall (fun x => exists u, has x u) (qattrs_kids qa) ->
    union_of a b t -> has (NSetQuery OpUnion l r d qa) (Some t)
| h_set op l r qa a b : op <> OpUnion -> has l a -> has r b -> Forall (fun x => exists u, has x u) (qattrs_kids qa) ->
    has (NSetQuery op l r true qa) (Some unknown)
| h_table_query n s c qa : has (NTable n s c) None -> Forall (fun x => exists u, has x u) (qattrs_kids qa) ->
    has (NTableQuery (NTable n s c) qa) (Some unknown)
| h_values es qa ts t : Forall2 (fun x t => has x (Some t)) es ts ->
    Forall (fun x => exists u, has x u) (qattrs_kids qa) -> common unknown ts t ->
    has (NValues es qa) (Some t)
| h_table n s c : (truthy c = true -> truthy s = true) -> has (NTable n s c) None
| h_aliased_rel r a cols u : has r u -> has (NAliasedRel r a cols) None
| h_join l r jt nat c a b : has l a -> has r b ->
    Forall (fun x => exists u, has x u) (match c with None => [] | Some x => jcrit_kids x end) ->
    (jt = JCross -> c = None) -> (nat = true -> c = None) ->
    has (NJoin l r jt nat c) None
| h_unnest vs od ts : Forall2 (fun x t => has x (Some t)) vs ts ->
    has (NUnnest vs od) (Some (TRow (map (fun t => match t with TArray u => u | _ => unknown end) ts)))
| h_lateral q u : has q u -> has (NLateral q) None
| h_sample r st p u t : has r u -> has p t -> has (NSample r st p) None.
