(** Model of a traversal with treeno/visitor.py by a visitor that descends at some objects
    only.  The methods of [TreenoVisitor] do nothing (visitor.py 184-658), so this is a
    subclass some of whose methods [visit_X] note the object and call its [visit] method,
    and whose other methods only note it.  [Visit.v] is the case that all descend. *)
From Coq Require Import String List ZArith Bool.
From Verif Require Import PyStr Types Functions Ast Visit.
Import ListNotations.
Open Scope string_scope.

(** Where it descends: at which nodes, and at which objects that are no node of the model. *)
Record visitor := mkVisitor { at_node : node -> bool; at_part : string -> bool }.
(** [visitor.visit(x)] for an object that is no node. *)
Definition part (v : visitor) (cls : string) (r : result (list seen)) : result (list seen) :=
  if at_part v cls then noted cls r else Ok [SeenPart cls].
(** expression.py 991-993 [When], 1006-1007 [Else]. *)
Definition part_branch (v : visitor) (f : node -> result (list seen)) (cv : node * node) : result (list seen) :=
  let '(c, x) := cv in part v "When" (walk_then (f c) (f x)).
(** relation.py 842-844, 873-874, 907-908: the criterion is visited also if it is None, and
    there is no [visit_NoneType]. *)
Definition part_criterion (v : visitor) (f : node -> result (list seen)) (c : option (jcrit node)) : result (list seen) :=
  part v "JoinConfig"
    match c with
    | None => Err AttributeError
    | Some (JUsing _) => part v "JoinUsingCriteria" (Ok [])
    | Some (JOn x) => part v "JoinOnCriteria" (f x)
    end.
(** visitor.py 184-658, expression.py 358-363: there is no [visit_Variable]; None is no [Sql]. *)
Definition has_method (e : node) : bool := match e with NNone | NVar _ => false | _ => true end.
(** visitor.py 180-182 [visit], then the [visit] methods as in [Visit.walk]: expression.py 228-1042,
    relation.py 339-1092, functions/*.py.  There is no [visit_Variable] and no [visit_NoneType],
    whether or not the visitor descends. *)
Fixpoint walk_by (v : visitor) (e : node) : result (list seen) :=
  let* inner :=
    if negb (at_node v e) then if has_method e then Ok [] else Err AttributeError
    else
      match e with
      | NNone | NVar _ => Err AttributeError
      | NLit _ _ | NTypeCtor _ _ | NInterval _ _ _ | NDateTime _ _ | NTable _ _ _ => Ok []
      | NField _ tr _ | NStar tr _ => walk_tref (walk_by v) tr
      | NAliased x _ | NAliasedStar x _ | NUn _ x | NCast _ x _ | NNormalize x _ | NAliasedRel x _ _ | NLateral x => walk_by v x
      | NLambda [] b => walk_by v b
      | NLambda (_ :: _) _ => Err AttributeError
      | NBin _ a b | NInQuery a b | NSubscript a b | NSetQuery _ a b _ _ | NSample a _ b => walk_then (walk_by v a) (walk_by v b)
      | NBetween a b c => walk_then (walk_by v a) (walk_then (walk_by v b) (walk_by v c))
      | NArray vs | NRow vs | NValues vs _ | NUnnest vs _ => walk_list (walk_by v) vs
      | NInList x vs => walk_then (walk_by v x) (walk_list (walk_by v) vs)
      | NLike a b c => walk_then (walk_by v a) (walk_then (walk_by v b) (walk_opt (walk_by v) c))
      | NCase bs el x =>
          walk_then (walk_list (part_branch v (walk_by v)) bs)
            (walk_then (walk_opt (fun y => part v "Else" (walk_by v y)) el) (walk_opt (walk_by v) x))
      | NFunc FQDigestAgg _ _ => Err AttributeError
      | NFunc g args _ => let* ls := each (walk_by v) args in Ok (concat (if is_stats g then rev ls else ls))
      | NListAgg x _ None _ => walk_by v x
      | NListAgg x _ (Some _) _ => walk_then (walk_by v x) (part v "OverflowFiller" (Ok []))
      | NSelect _ _ _ _ _ _ _ _ => Err AttributeError
      | NTableQuery t _ => walk_by v t
      | NJoin l r _ _ c => walk_then (walk_by v l) (walk_then (walk_by v r) (part_criterion v (walk_by v) c))
      end in
  Ok (SeenNode e :: inner).
(** visitor.py 180-658: [TreenoVisitor] itself, up to the noting. *)
Definition base_visitor := mkVisitor (fun _ => false) (fun _ => false).
