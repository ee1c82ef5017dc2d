(** Rebuilding an object from its parts: treeno/util.py 71-73 [children] and
    attr.evolve as used in expression.py 372-400 and
    treeno/datatypes/resolve.py 63-84. *)
From Coq Require Import String List ZArith Bool.
From Verif Require Import PyStr Types Functions Ast.
Import ListNotations.
Open Scope string_scope.

(** The map over the parts of a node that are not nodes. *)
Definition order_map {A B} (f : A -> result B) (x : order A) : result (order B) :=
  let 'mkOrder v d n := x in let* v' := f v in Ok (mkOrder v' d n).
Definition opt_map {A B} (f : A -> result B) (x : option A) : result (option B) :=
  match x with None => Ok None | Some a => let* b := f a in Ok (Some b) end.
Definition bound_map {A B} (f : A -> result B) (x : bound A) : result (bound B) :=
  match x with
  | BBounded d v => let* v' := f v in Ok (BBounded d v')
  | BUnbounded d => Ok (BUnbounded d)
  | BCurrent => Ok BCurrent
  end.
Definition window_map {A B} (f : A -> result B) (x : window A) : result (window B) :=
  let 'mkWindow p ob ps fr s e := x in
  let* ob' := each (order_map f) ob in
  let* ps' := each f ps in
  let* s' := bound_map f s in
  let* e' := bound_map f e in
  Ok (mkWindow p ob' ps' fr s' e').
Definition fopts_map {A B} (f : A -> result B) (x : fopts A) : result (fopts B) :=
  let 'mkFopts ob fi wi ig := x in
  let* ob' := each (order_map f) ob in
  let* fi' := opt_map f fi in
  let* wi' := opt_map (window_map f) wi in
  Ok (mkFopts ob' fi' wi' ig).

Definition qattrs_map {A B} (f : A -> result B) (x : qattrs A) : result (qattrs B) :=
  let 'mkQ wi ob off lim := x in
  let* ob' := each (order_map f) ob in
  let* wi' := each f wi in
  Ok (mkQ wi' ob' off lim).
Definition group_map {A B} (f : A -> result B) (g : group A) : result (group B) :=
  match g with
  | GSet l => let* l' := each f l in Ok (GSet l')
  | GSets ll => let* ll' := each (each f) ll in Ok (GSets ll')
  | GCube l => let* l' := each f l in Ok (GCube l')
  | GRollup l => let* l' := each f l in Ok (GRollup l')
  end.
Definition groupby_map {A B} (f : A -> result B) (g : groupby A) : result (groupby B) :=
  let 'mkG gs d := g in let* gs' := each (group_map f) gs in Ok (mkG gs' d).
Definition jcrit_map {A B} (f : A -> result B) (c : jcrit A) : result (jcrit B) :=
  match c with
  | JUsing cols => Ok (JUsing cols)
  | JOn x => let* x' := f x in Ok (JOn x')
  end.
Definition tref_map {A B} (f : A -> result B) (t : tref A) : result (tref B) :=
  match t with
  | TRNone => Ok TRNone
  | TRStr s => Ok (TRStr s)
  | TRVal v => let* v' := f v in Ok (TRVal v')
  end.
(** A branch of a CASE, and a named window. *)
Definition branch_map {A B} (f : A -> result B) (cv : A * A) : result (B * B) :=
  let '(c, x) := cv in let* c' := f c in let* x' := f x in Ok (c', x').
Definition named_map {A B} (f : A -> result B) (nw : string * window A)
  : result (string * window B) :=
  let '(n, w) := nw in let* w' := window_map f w in Ok (n, w').

(** [attr.evolve(node, **{k: f(v) for k, v in children(node).items()})],
    without what the constructor does.  attrs puts the attributes of a base class before
    those of the class, hence the order of the calls of [f]. *)
Definition node_each (f : node -> result node) (e : node) : result node :=
  match e with
  | NNone | NLit _ _ | NVar _ | NTypeCtor _ _ | NInterval _ _ _ | NDateTime _ _ | NTable _ _ _ => Ok e
  | NField n tr t => let* tr' := tref_map f tr in Ok (NField n tr' t)
  | NStar tr t => let* tr' := tref_map f tr in Ok (NStar tr' t)
  | NAliased v a => let* v' := f v in Ok (NAliased v' a)
  | NAliasedStar v a => let* v' := f v in Ok (NAliasedStar v' a)
  | NLambda vs b => let* b' := f b in Ok (NLambda vs b')
  | NUn op v => let* v' := f v in Ok (NUn op v')
  | NBin op l r => let* l' := f l in let* r' := f r in Ok (NBin op l' r')
  | NBetween a b c => let* a' := f a in let* b' := f b in let* c' := f c in Ok (NBetween a' b' c')
  | NArray vs => let* vs' := each f vs in Ok (NArray vs')
  | NInQuery v q => let* v' := f v in let* q' := f q in Ok (NInQuery v' q')
  | NInList v vs => let* v' := f v in let* vs' := each f vs in Ok (NInList v' vs')
  | NLike a b c => let* a' := f a in let* b' := f b in let* c' := opt_map f c in Ok (NLike a' b' c')
  | NRow vs => let* vs' := each f vs in Ok (NRow vs')
  | NCast tr v t => let* v' := f v in Ok (NCast tr v' t)
  | NSubscript a b => let* a' := f a in let* b' := f b in Ok (NSubscript a' b')
  | NCase bs el v =>
      let* bs' := each (branch_map f) bs in
      let* el' := opt_map f el in
      let* v' := opt_map f v in Ok (NCase bs' el' v')
  | NFunc g args fo =>
      let* fo' := fopts_map f fo in
      let* args' := each f args in Ok (NFunc g args' fo')
  | NListAgg v sep ov ob =>
      let* v' := f v in
      let* ob' := each (order_map f) ob in Ok (NListAgg v' sep ov ob')
  | NNormalize v nf => let* v' := f v in Ok (NNormalize v' nf)
  | NSelect sel fr wh gb hv d ws qa =>
      let* qa' := qattrs_map f qa in
      let* sel' := each f sel in
      let* fr' := opt_map f fr in
      let* wh' := opt_map f wh in
      let* gb' := opt_map (groupby_map f) gb in
      let* hv' := opt_map f hv in
      let* ws' := each (named_map f) ws in
      Ok (NSelect sel' fr' wh' gb' hv' d ws' qa')
  | NSetQuery op l r d qa =>
      let* qa' := qattrs_map f qa in
      let* l' := f l in
      let* r' := f r in
      Ok (NSetQuery op l' r' d qa')
  | NTableQuery t qa =>
      let* qa' := qattrs_map f qa in
      let* t' := f t in Ok (NTableQuery t' qa')
  | NValues es qa =>
      let* qa' := qattrs_map f qa in
      let* es' := each f es in Ok (NValues es' qa')
  | NAliasedRel r a cols => let* r' := f r in Ok (NAliasedRel r' a cols)
  | NJoin l r jt nat c =>
      let* l' := f l in
      let* r' := f r in
      let* c' := opt_map (jcrit_map f) c in Ok (NJoin l' r' jt nat c')
  | NUnnest vs od => let* vs' := each f vs in Ok (NUnnest vs' od)
  | NLateral q => let* q' := f q in Ok (NLateral q')
  | NSample r st p => let* r' := f r in let* p' := f p in Ok (NSample r' st p')
  end.
