(** C57, continued: which attributes the tree shows, and as what (treeno/cli.py 65-95). *)
From Coq Require Import String Ascii List ZArith QArith Bool Lia.
From Verif Require Import PyStr Types Inference Functions Ast Tokens Equals Cli Tree Parser PropertiesResolve PropertiesLiterals PropertiesTree TreeShows.
Import ListNotations.
Open Scope nat_scope.
Open Scope string_scope.
Open Scope list_scope.

(** * Every attribute is shown as itself or skipped by the rules *)
Theorem C57_attributes : forall e, shows (asdict e) (treeify e).
Proof. exact attributes_shown. Qed.
Print Assumptions C57_attributes.

(** The tree of an object has its class as label. *)
Theorem C57_class : forall e, e <> NNone -> label (treeify e) = class_name (class_of e).
Proof. exact treeify_label. Qed.
Print Assumptions C57_class.

(** Which of the attributes are shown, in their order. *)
Definition skips (kv : string * dval) : bool :=
  match kv with
  | (String "_"%char _, _) | (_, DNone) | (_, DList []) => true
  | (_, DEnum n) => existsb (String.eqb n)
      ["SetQuantifier.ALL"; "OrderType.ASC"; "NullOrder.LAST"; "NullTreatment.RESPECT"; "FrameType.RANGE"]
  | _ => false
  end.
Lemma skips_spec k v : skipped k v <-> skips (k, v) = true.
Proof.
  split.
  - intros [k' v'|k'|k' n H|k']; [reflexivity| | |].
    + cbn [skips]. destruct k' as [|[[] [] [] [] [] [] [] []] k']; reflexivity.
    + assert (E : existsb (String.eqb n) ["SetQuantifier.ALL"; "OrderType.ASC"; "NullOrder.LAST"; "NullTreatment.RESPECT"; "FrameType.RANGE"] = true)
        by (apply existsb_exists; exists n; split; [exact H|apply String.eqb_refl]).
      unfold skips. rewrite E. destruct k' as [|[[] [] [] [] [] [] [] []] k']; reflexivity.
    + cbn [skips]. destruct k' as [|[[] [] [] [] [] [] [] []] k']; reflexivity.
  - intros H. destruct (Bool.bool_dec (match k with String "_"%char _ => true | _ => false end) true) as [U|U].
    + destruct k as [|[[] [] [] [] [] [] [] []] k]; try discriminate U. exact (skip_hidden k v).
    + assert (G : skips ("k", v) = true)
        by (destruct k as [|[[] [] [] [] [] [] [] []] k]; try exact H; now elim U).
      unfold skips in G. destruct v as [|s|q|r|n|[|x l]|l]; try discriminate G; [constructor| |constructor].
      apply existsb_exists in G as (m & Hm & E). apply String.eqb_eq in E as ->. now constructor.
Qed.
Lemma keys_shown l : forall ts, shows_attributes l ts -> map label ts = map fst (filter (fun kv => negb (skips kv)) l).
Proof.
  induction l as [|[k v] l IH]; intros ts H; inversion H as [|? ? ? ? Hs Ha|? ? ? ? us Hs Hv Ha]; subst; [reflexivity| |]; cbn [filter].
  - apply skips_spec in Hs. rewrite Hs. cbn [negb]. now apply IH.
  - rewrite skips_spec in Hs. apply not_true_is_false in Hs. rewrite Hs. cbn [negb map label fst]. f_equal. now apply IH.
Qed.
Theorem C57_keys : forall e l, asdict e = DDict l ->
  map label (children_of (treeify e)) = map fst (filter (fun kv => negb (skips kv)) l).
Proof.
  intros e l E. pose proof (attributes_shown e) as H. rewrite E in H.
  assert (N : e <> NNone) by (intros ->; discriminate E).
  pose proof (treeify_label e N) as L. pose proof (treeify_branching e N) as B.
  destruct (treeify e) as [s|c ts]; [destruct B|]. cbn [children_of label] in *.
  inversion H as [| | | | | | | | | |c' l' ts' Ha|l1 l2 ts' P Hi]; subst; [now apply keys_shown|exfalso].
  match goal with L : _ = class_name (class_of e) |- _ =>
    destruct (class_of e) as [| | | | | | | |u|b| | | | | | | | |t| | |f| |o| | | | | | | |]; try discriminate L;
      [destruct u|destruct b|destruct t|destruct f|destruct o]; discriminate L
  end.
Qed.
Print Assumptions C57_keys.

(** * Cases *)
Definition sorted_call (d n : bool) (f : frame_type) : node :=
  NFunc FSum [column "x"] (mkFopts [mkOrder (column "y") d n] None
    (Some (mkWindow None [] [] f (BUnbounded false) BCurrent)) n).
(** Only what differs from the defaults is shown; the current row has no attributes and is shown. *)
Example C57_case_shown :
  tree_command bare_env CExpression "SUM(x ORDER BY y DESC NULLS FIRST) IGNORE NULLS OVER (GROUPS UNBOUNDED PRECEDING)"
  = Ok (treeify (sorted_call true true FTGroups))
  /\ treeify (sorted_call true true FTGroups)
     = Tree "Sum"
         [Tree "data_type" [Leaf "UNKNOWN"];
          Tree "orderby" [Tree "<list>" [Tree "OrderTerm"
            [Tree "value" [treeify (column "y")]; Tree "order_type" [Leaf "OrderType.DESC"];
             Tree "null_order" [Leaf "NullOrder.FIRST"]]]];
          Tree "window" [Tree "Window"
            [Tree "frame_type" [Leaf "FrameType.GROUPS"];
             Tree "start_bound" [Tree "UnboundedFrameBound" [Tree "bound_type" [Leaf "BoundType.PRECEDING"]]];
             Tree "end_bound" [Tree "CurrentFrameBound" []]]];
          Tree "null_treatment" [Leaf "NullTreatment.IGNORE"];
          Tree "value" [treeify (column "x")]]
  /\ treeify (sorted_call false false FTRange)
     = Tree "Sum"
         [Tree "data_type" [Leaf "UNKNOWN"];
          Tree "orderby" [Tree "<list>" [Tree "OrderTerm" [Tree "value" [treeify (column "y")]]]];
          Tree "window" [Tree "Window"
            [Tree "start_bound" [Tree "UnboundedFrameBound" [Tree "bound_type" [Leaf "BoundType.PRECEDING"]]];
             Tree "end_bound" [Tree "CurrentFrameBound" []]]];
          Tree "value" [treeify (column "x")]].
Proof. split; [|split]; vm_compute; reflexivity. Qed.
(** The hidden schema of a table is among its attributes and not in its tree. *)
Example C57_case_hidden : exists l, asdict (NTable "t" (Some "s") None) = DDict l
  /\ map fst l = ["name"; "schema"; "catalog"; "_column_schema"]
  /\ map label (children_of (treeify (NTable "t" (Some "s") None))) = ["name"; "schema"].
Proof. eexists. split; [reflexivity|]. split; reflexivity. Qed.
(** The rules do not allow another member, nor a default that is shown. *)
Example C57_case_rules : ~ shows (DEnum "NullOrder.FIRST") (Leaf "NullOrder.LAST")
  /\ ~ shows_attributes [("frame_type", DEnum "FrameType.RANGE")] [Tree "frame_type" [Leaf "FrameType.RANGE"]].
Proof.
  split; intro H.
  - inversion H. match goal with E : d_type ?t = _ |- _ => destruct t; discriminate E end.
  - inversion H as [|? ? ? ? Hs Ha|? ? ? ? us Hs Hv Ha]; subst; [inversion Ha|].
    apply Hs. constructor. cbn [In default_members]. tauto.
Qed.
