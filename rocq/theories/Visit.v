(** Model of a traversal with treeno/visitor.py: a subclass of [TreenoVisitor] all of
    whose methods [visit_X] note the object and call its [visit] method. *)
From Coq Require Import String List ZArith Bool.
From Verif Require Import PyStr Types Functions Ast.
Import ListNotations.
Open Scope string_scope.

(** What is noted: a node, or an object that is no node of the model, by its class. *)
Inductive seen := SeenNode (e : node) | SeenPart (cls : string).
Definition noted (cls : string) (r : result (list seen)) : result (list seen) :=
  let* l := r in Ok (SeenPart cls :: l).
(** [for x in xs: visitor.visit(x)] *)
Definition walk_list {A} (f : A -> result (list seen)) (l : list A) : result (list seen) :=
  let* ls := each f l in Ok (concat ls).
(** [if x: visitor.visit(x)]; no class defines [__bool__] or [__len__]. *)
Definition walk_opt {A} (f : A -> result (list seen)) (o : option A) : result (list seen) :=
  match o with None => Ok [] | Some x => f x end.
Definition walk_then (a b : result (list seen)) : result (list seen) :=
  let* x := a in let* y := b in Ok (x ++ y)%list.
(** expression.py 264-266, 322-324. *)
Definition walk_tref (f : node -> result (list seen)) (t : tref node) : result (list seen) :=
  match t with TRVal v => if is_value v then f v else Ok [] | _ => Ok [] end.
(** expression.py 991-993 [When], 1006-1007 [Else]. *)
Definition walk_branch (f : node -> result (list seen)) (cv : node * node) : result (list seen) :=
  let '(c, v) := cv in noted "When" (walk_then (f c) (f v)).
(** orderby.py 47-48 *)
Definition walk_order (f : node -> result (list seen)) (o : order node) : result (list seen) :=
  let 'mkOrder v _ _ := o in noted "OrderTerm" (f v).
(** relation.py 842-844, 873-874, 907-908: the criterion is visited also if it is None, and
    there is no [visit_NoneType]. *)
Definition walk_criterion (f : node -> result (list seen)) (c : option (jcrit node)) : result (list seen) :=
  noted "JoinConfig"
    match c with
    | None => Err AttributeError
    | Some (JUsing _) => noted "JoinUsingCriteria" (Ok [])
    | Some (JOn x) => noted "JoinOnCriteria" (f x)
    end.
(** window.py 57-58, 68-69, 77-78, 129-139.  The bounds are never None. *)
Definition walk_bound (f : node -> result (list seen)) (b : bound node) : result (list seen) :=
  match b with
  | BBounded _ v => noted "BoundedFrameBound" (f v)
  | BUnbounded _ => noted "UnboundedFrameBound" (Ok [])
  | BCurrent => noted "CurrentFrameBound" (Ok [])
  end.
Definition walk_window (f : node -> result (list seen)) (w : window node) : result (list seen) :=
  let 'mkWindow _ ob ps _ st en := w in
  noted "Window" (walk_then (walk_list (walk_order f) ob)
                    (walk_then (walk_list f ps) (walk_then (walk_bound f st) (walk_bound f en)))).
(** groupby.py 30-32, 50-52, 72-74, 96-98, 118-120. *)
Definition walk_group (f : node -> result (list seen)) (g : group node) : result (list seen) :=
  match g with
  | GSet l => noted "GroupingSet" (walk_list f l)
  | GSets ll => noted "GroupingSetList" (walk_list (fun l => noted "GroupingSet" (walk_list f l)) ll)
  | GCube l => noted "Cube" (walk_list f l)
  | GRollup l => noted "Rollup" (walk_list f l)
  end.
Definition walk_groupby (f : node -> result (list seen)) (g : groupby node) : result (list seen) :=
  let 'mkG gs _ := g in noted "GroupBy" (walk_list (walk_group f) gs).
(** functions/aggregate.py 106-108 [BinaryStatsFunction]: [x] before [y], declared and printed
    in the other order.  As only AttributeError is raised, the arguments may be walked in
    either order. *)
Definition is_stats (g : fn) : bool :=
  match g with FCorr | FCovarPop | FCovarSamp | FKurtosis | FRegrIntercept | FRegrSlope => true | _ => false end.

(** visitor.py 180-182 [visit] followed by the [visit] method of the class: expression.py 228-1042,
    relation.py 339-1092, functions/*.py.  There is no [visit_Variable] (expression.py 408-411)
    and no [visit_list] (relation.py 530).  functions/aggregate.py 591: [QDigestAgg] has no
    attribute [buckets].  The attributes of [AggregateFunction] (orderby, filter, window) and
    those of [Query] (with, orderby) are visited by no method. *)
Fixpoint walk (e : node) : result (list seen) :=
  let* inner :=
    match e with
    | NNone | NVar _ => Err AttributeError
    | NLit _ _ | NTypeCtor _ _ | NInterval _ _ _ | NDateTime _ _ | NTable _ _ _ => Ok []
    | NField _ tr _ | NStar tr _ => walk_tref walk tr
    | NAliased v _ | NAliasedStar v _ | NUn _ v | NCast _ v _ | NNormalize v _ | NAliasedRel v _ _ | NLateral v => walk v
    | NLambda [] b => walk b
    | NLambda (_ :: _) _ => Err AttributeError
    | NBin _ a b | NInQuery a b | NSubscript a b | NSetQuery _ a b _ _ | NSample a _ b => walk_then (walk a) (walk b)
    | NBetween a b c => walk_then (walk a) (walk_then (walk b) (walk c))
    | NArray vs | NRow vs | NValues vs _ | NUnnest vs _ => walk_list walk vs
    | NInList v vs => walk_then (walk v) (walk_list walk vs)
    | NLike a b c => walk_then (walk a) (walk_then (walk b) (walk_opt walk c))
    | NCase bs el v =>
        walk_then (walk_list (walk_branch walk) bs)
          (walk_then (walk_opt (fun x => noted "Else" (walk x)) el) (walk_opt walk v))
    | NFunc FQDigestAgg _ _ => Err AttributeError
    | NFunc g args _ => let* ls := each walk args in Ok (concat (if is_stats g then rev ls else ls))
    | NListAgg v _ None _ => walk v
    | NListAgg v _ (Some _) _ => walk_then (walk v) (noted "OverflowFiller" (Ok []))
    | NSelect _ _ _ _ _ _ _ _ => Err AttributeError
    | NTableQuery t _ => walk t
    | NJoin l r _ _ c => walk_then (walk l) (walk_then (walk r) (walk_criterion walk c))
    end in
  Ok (SeenNode e :: inner).
