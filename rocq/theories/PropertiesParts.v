(** C56: what [Sql.equals] compares, attribute by attribute. *)
From Coq Require Import String List ZArith QArith Qreduction Qpower Bool Lia Permutation.
From Verif Require Import PyStr Types Inference Functions Ast Walk NodeFacts Parser Tokens PropertiesLiterals Equals PropertiesResolve PropertiesEquals.
Import ListNotations.
Open Scope nat_scope.
Open Scope string_scope.
Open Scope list_scope.

(** * The statement

    Two objects in the same place of two larger ones are compared without their
    classes.  [below] observes that: the two are put in the same place. *)
Definition below (a b : node) : Prop := equals (NLateral a) (NLateral b) = true.

(** The value of a number in Python ([True] is 1). *)
Definition number (l : lit) : option Q :=
  match l with
  | LBool b => Some (if b then 1 else 0)%Q
  | LInt z => Some (inject_Z z)
  | LDec d => Some (inject_Z (if dneg d then - Z.of_N (dcoef d) else Z.of_N (dcoef d)) * (Qpower (10#1) (dexp d)))%Q
  | _ => None
  end.
Definition same_literal (l l' : lit) : Prop :=
  match number l, number l' with
  | Some q, Some q' => Qeq q q'
  | None, None => l = l'
  | _, _ => False
  end.

(** An attribute that may be absent. *)
Definition given (o : option node) : node := match o with Some x => x | None => NNone end.
Definition rel_opt {A} (R : A -> A -> Prop) (o o' : option A) : Prop :=
  match o, o' with Some x, Some y => R x y | None, None => True | _, _ => False end.
Definition rel_tref (P : node -> node -> Prop) (t t' : tref node) : Prop :=
  match t, t' with
  | TRStr s, TRStr s' => s = s'
  | TRStr _, _ | _, TRStr _ => False
  | _, _ => P (match t with TRVal v => v | _ => NNone end) (match t' with TRVal v => v | _ => NNone end)
  end.
Definition rel_order (P : node -> node -> Prop) (o o' : order node) : Prop :=
  P (o_value o) (o_value o') /\ o_desc o = o_desc o' /\ o_nulls_first o = o_nulls_first o'.
Definition rel_bound (P : node -> node -> Prop) (b b' : bound node) : Prop :=
  match b, b' with
  | BBounded d v, BBounded d' v' => d = d' /\ P v v'
  | BUnbounded d, BUnbounded d' => d = d'
  | BCurrent, BCurrent => True
  | _, _ => False
  end.
Definition rel_window (P : node -> node -> Prop) (w w' : window node) : Prop :=
  w_parent w = w_parent w' /\ Forall2 (rel_order P) (w_orderby w) (w_orderby w')
  /\ Forall2 P (w_partitions w) (w_partitions w') /\ w_frame w = w_frame w'
  /\ rel_bound P (w_start w) (w_start w') /\ rel_bound P (w_end w) (w_end w').
Definition rel_fopts (P : node -> node -> Prop) (fo fo' : fopts node) : Prop :=
  Forall2 (rel_order P) (fo_orderby fo) (fo_orderby fo') /\ P (given (fo_filter fo)) (given (fo_filter fo'))
  /\ rel_opt (rel_window P) (fo_window fo) (fo_window fo') /\ fo_ignore fo = fo_ignore fo'.
Definition rel_qattrs (P : node -> node -> Prop) (q q' : qattrs node) : Prop :=
  q_offset q = q_offset q' /\ q_limit q = q_limit q'
  /\ Forall2 (rel_order P) (q_orderby q) (q_orderby q') /\ Forall2 P (q_with q) (q_with q').
(** One grouping set, CUBE and ROLLUP are not told apart. *)
Definition one_group (g : group node) : option (list node) :=
  match g with GSet l | GCube l | GRollup l => Some l | GSets _ => None end.
Definition rel_group (P : node -> node -> Prop) (g g' : group node) : Prop :=
  match g, g' with
  | GSets ll, GSets ll' => Forall2 (Forall2 P) ll ll'
  | _, _ => exists l l', one_group g = Some l /\ one_group g' = Some l' /\ Forall2 P l l'
  end.
Definition rel_groupby (P : node -> node -> Prop) (g g' : groupby node) : Prop :=
  Forall2 (rel_group P) (g_groups g) (g_groups g') /\ g_distinct g = g_distinct g'.
Definition rel_crit (P : node -> node -> Prop) (c c' : jcrit node) : Prop :=
  match c, c' with
  | JUsing l, JUsing l' => l = l'
  | JOn x, JOn y => P x y
  | _, _ => False
  end.
Definition rel_pair (P : node -> node -> Prop) (x y : node * node) : Prop := P (fst x) (fst y) /\ P (snd x) (snd y).
Definition rel_named (P : node -> node -> Prop) (x y : string * window node) : Prop :=
  fst x = fst y /\ rel_window P (snd x) (snd y).

(** The names of the parameters of a function. *)
Definition params (f : fn) : list string := if fn_variadic f then ["values"] else fn_attrs f.

(** Objects of the same kind: what has to be the same, and what has to be
    related by [P].  Not compared: the operator of a unary or binary operation or
    of a set operation, CAST or TRY_CAST, the name of a function. *)
Definition same (P : node -> node -> Prop) (a b : node) : Prop :=
  match a, b with
  | NNone, NNone => True
  | NLit l _, NLit l' _ => same_literal l l'
  | NField n tr _, NField n' tr' _ => n = n' /\ rel_tref P tr tr'
  | NAliased v s, NAliased v' s' => P v v' /\ s = s'
  | NStar tr _, NStar tr' _ => rel_tref P tr tr'
  | NAliasedStar v l, NAliasedStar v' l' => P v v' /\ l = l'
  | NVar n, NVar n' => n = n'
  | NLambda vs x, NLambda vs' x' => vs = vs' /\ P x x'
  | NUn _ v, NUn _ v' => P v v'
  | NBin _ l r, NBin _ l' r' => P l l' /\ P r r'
  | NBetween x y z, NBetween x' y' z' => P x x' /\ P y y' /\ P z z'
  | NArray l, NArray l' => Forall2 P l l'
  | NInQuery v q, NInQuery v' q' => P v v' /\ P q q'
  | NInList v l, NInList v' l' => P v v' /\ Forall2 P l l'
  | NLike v p e, NLike v' p' e' => P v v' /\ P p p' /\ P (given e) (given e')
  | NTypeCtor v n, NTypeCtor v' n' => v = v' /\ n = n'
  | NRow l, NRow l' => Forall2 P l l'
  | NInterval v f t, NInterval v' f' t' => v = v' /\ f = f' /\ t = t'
  | NCast _ v _, NCast _ v' _ => P v v'
  | NSubscript v i, NSubscript v' i' => P v v' /\ P i i'
  | NCase bs el v, NCase bs' el' v' =>
      Forall2 (rel_pair P) bs bs' /\ rel_opt P el el' /\ P (given v) (given v')
  | NFunc f l fo, NFunc f' l' fo' =>
      is_aggregate f = is_aggregate f' /\ params f = params f' /\ Forall2 P l l' /\ rel_fopts P fo fo'
  | NDateTime _ p, NDateTime _ p' => p = p'
  | NListAgg v s o ob, NListAgg v' s' o' ob' => P v v' /\ s = s' /\ o = o' /\ Forall2 (rel_order P) ob ob'
  | NNormalize v n, NNormalize v' n' => P v v' /\ n = n'
  | NSelect sel fr wh gb hv d ws qa, NSelect sel' fr' wh' gb' hv' d' ws' qa' =>
      Forall2 P sel sel' /\ P (given fr) (given fr') /\ P (given wh) (given wh')
      /\ rel_opt (rel_groupby P) gb gb' /\ P (given hv) (given hv') /\ d = d'
      /\ (exists ws2, Permutation ws' ws2 /\ Forall2 (rel_named P) ws ws2) /\ rel_qattrs P qa qa'
  | NSetQuery _ l r d qa, NSetQuery _ l' r' d' qa' => P l l' /\ P r r' /\ d = d' /\ rel_qattrs P qa qa'
  | NTableQuery t qa, NTableQuery t' qa' => P t t' /\ rel_qattrs P qa qa'
  | NValues l qa, NValues l' qa' => Forall2 P l l' /\ rel_qattrs P qa qa'
  | NTable n s c, NTable n' s' c' => n = n' /\ s = s' /\ c = c'
  | NAliasedRel r s l, NAliasedRel r' s' l' => P r r' /\ s = s' /\ l = l'
  | NJoin l r jt nat c, NJoin l' r' jt' nat' c' =>
      P l l' /\ P r r' /\ jt = jt' /\ nat = nat' /\ rel_opt (rel_crit P) c c'
  | NUnnest l o, NUnnest l' o' => Forall2 P l l' /\ o = o'
  | NLateral q, NLateral q' => P q q'
  | NSample r st p, NSample r' st' p' => P r r' /\ st = st' /\ P p p'
  | _, _ => False
  end.
(** Different kinds whose attributes have the same names: a unary operation and
    a function of one parameter called value; ARRAY, ROW, CONCAT and COALESCE;
    CAST and TRY. *)
Definition one_value (e : node) : option node :=
  match e with
  | NUn _ v => Some v
  | NFunc g [v] _ =>
      if is_aggregate g then None
      else match params g with [p] => if String.eqb p "value" then Some v else None | _ => None end
  | _ => None
  end.
Definition many_values (e : node) : option (list node) :=
  match e with NArray l | NRow l | NFunc FConcatenate l _ | NFunc FCoalesce l _ => Some l | _ => None end.
Definition one_expr (e : node) : option node :=
  match e with NCast _ v _ | NFunc FTry [v] _ => Some v | _ => None end.
Definition mixed (P : node -> node -> Prop) (a b : node) : Prop :=
  (exists v w, one_value a = Some v /\ one_value b = Some w /\ P v w)
  \/ (exists l m, many_values a = Some l /\ many_values b = Some m /\ Forall2 P l m)
  \/ (exists v w, one_expr a = Some v /\ one_expr b = Some w /\ P v w).
(** The names of the windows of a query are the keys of a dict. *)
Definition keyed (e : node) : Prop :=
  match e with NSelect _ _ _ _ _ _ ws _ => NoDup (map fst ws) | _ => True end.

(** * The parts of a dict *)
Notation D := (fun x y => asdict x = asdict y).
Lemma below_iff a b : below a b <-> asdict a = asdict b.
Proof.
  unfold below. rewrite equals_iff. cbn [asdict class_of]. split.
  - intros (_ & _ & _ & E). injection E as E. exact E.
  - intros ->. repeat split; discriminate.
Qed.
Lemma map_rel {A} (f : A -> dval) l l' : map f l = map f l' <-> Forall2 (fun x y => f x = f y) l l'.
Proof.
  split.
  - revert l'. induction l as [|x l IH]; intros [|y l'] E; try discriminate E; constructor.
    + cbn [map] in E. now injection E.
    + apply IH. cbn [map] in E. now injection E.
  - induction 1; cbn [map]; congruence.
Qed.
Lemma dlist_rel {A} (f : A -> dval) l l' : DList (map f l) = DList (map f l') <-> Forall2 (fun x y => f x = f y) l l'.
Proof. rewrite <- map_rel. split; congruence. Qed.
Lemma list_rel {A} (f : A -> dval) l l' : d_list f l = d_list f l' <-> Forall2 (fun x y => f x = f y) l l'.
Proof.
  destruct l as [|x l], l' as [|y l']; unfold d_list; try (rewrite dlist_rel; reflexivity).
  - split; [constructor|reflexivity].
  - split; [discriminate|intro H; inversion H].
  - split; [discriminate|intro H; inversion H].
Qed.
Lemma forall2_iff {A} (R S : A -> A -> Prop) : (forall x y, R x y <-> S x y) -> forall l l', Forall2 R l l' <-> Forall2 S l l'.
Proof. intros H l l'. split; induction 1; constructor; auto; now apply H. Qed.
Lemma given_rel o o' : d_opt asdict o = d_opt asdict o' <-> asdict (given o) = asdict (given o').
Proof. destruct o, o'; reflexivity. Qed.
Lemma opt_rel {A} (f : A -> dval) (R : A -> A -> Prop) : (forall x, f x <> DNone) -> (forall x y, f x = f y <-> R x y) ->
  forall o o', d_opt f o = d_opt f o' <-> rel_opt R o o'.
Proof.
  intros N H [x|] [y|]; cbn [d_opt rel_opt]; [apply H| | |now split].
  - split; [intro E; now elim (N x)|tauto].
  - split; [intro E; now elim (N y)|tauto].
Qed.
Lemma node_dict e : asdict e = DNone \/ exists l, asdict e = DDict l.
Proof. destruct e; cbn [asdict]; try (right; eexists; reflexivity); [now left|]. right. destruct (is_aggregate f); eexists; reflexivity. Qed.
Lemma node_str e s : asdict e <> DStr s.
Proof. destruct (node_dict e) as [->|[l ->]]; discriminate. Qed.
Lemma node_none e : asdict e = DNone <-> e = NNone.
Proof.
  split; [|now intros ->]. destruct e; cbn [asdict]; try discriminate; [reflexivity|]. destruct (is_aggregate f); discriminate.
Qed.
Lemma tref_rel_iff t t' : d_tref asdict t = d_tref asdict t' <-> rel_tref D t t'.
Proof.
  destruct t as [|s|v], t' as [|s'|v']; cbn [d_tref rel_tref]; change (asdict NNone) with DNone; try reflexivity.
  all: split; try tauto; intro E; try discriminate E; try congruence.
  - now elim (node_str v' s).
  - now elim (node_str v s').
Qed.
Lemma str_opt o o' : d_opt DStr o = d_opt DStr o' <-> o = o'.
Proof. split; [apply opt_str_inj|congruence]. Qed.
Lemma int_opt o o' : d_opt d_int o = d_opt d_int o' <-> o = o'.
Proof. destruct o, o'; cbn [d_opt]; unfold d_int; split; congruence. Qed.
Lemma bool_rel b b' : d_bool b = d_bool b' <-> b = b'.
Proof. destruct b, b'; split; try reflexivity; try discriminate; intro; reflexivity. Qed.
Lemma quant_rel b b' : d_quantifier b = d_quantifier b' <-> b = b'.
Proof. destruct b, b'; split; try reflexivity; try discriminate; intro; reflexivity. Qed.
Lemma strs_rel l l' : DList (map DStr l) = DList (map DStr l') <-> l = l'.
Proof. split; [intro E; apply strs_inj; congruence|congruence]. Qed.
Lemma strl_rel l l' : d_list DStr l = d_list DStr l' <-> l = l'.
Proof. split; [apply list_strs_inj|congruence]. Qed.

(** One key at a time. *)
Lemma kv k v (l : list (string * dval)) v' l' : (k, v) :: l = (k, v') :: l' <-> v = v' /\ l = l'.
Proof. split; [intro E; now injection E|intros [-> ->]; reflexivity]. Qed.
Lemma kv0 (v v' : dval) (k : string) : [(k, v)] = [(k, v')] <-> v = v'.
Proof. split; [intro E; now injection E|intros ->; reflexivity]. Qed.
Lemma dict l l' : DDict l = DDict l' <-> l = l'.
Proof. split; congruence. Qed.
Ltac keys := repeat first [rewrite dict | rewrite kv0 | rewrite kv].

Lemma order_rel_iff o o' : d_order asdict o = d_order asdict o' <-> rel_order D o o'.
Proof.
  destruct o as [v d n], o' as [v' d' n']; cbn [d_order]. unfold rel_order. cbn [o_value o_desc o_nulls_first]. keys.
  assert (E1 : DEnum (if d then "OrderType.DESC" else "OrderType.ASC") = DEnum (if d' then "OrderType.DESC" else "OrderType.ASC") <-> d = d')
    by (destruct d, d'; split; try reflexivity; discriminate).
  assert (E2 : DEnum (if n then "NullOrder.FIRST" else "NullOrder.LAST") = DEnum (if n' then "NullOrder.FIRST" else "NullOrder.LAST") <-> n = n')
    by (destruct n, n'; split; try reflexivity; discriminate).
  rewrite E1, E2. reflexivity.
Qed.
Lemma orders_rel l l' : d_list (d_order asdict) l = d_list (d_order asdict) l' <-> Forall2 (rel_order D) l l'.
Proof. rewrite list_rel. apply forall2_iff. apply order_rel_iff. Qed.
Lemma dir_rel d d' : d_dir d = d_dir d' <-> d = d'.
Proof. destruct d, d'; split; try reflexivity; discriminate. Qed.
Lemma bound_rel_iff b b' : d_bound asdict b = d_bound asdict b' <-> rel_bound D b b'.
Proof.
  destruct b, b'; cbn [d_bound rel_bound]; keys; rewrite ?dir_rel; try reflexivity; try (split; [discriminate|tauto]); try tauto.
  - split; [intros [_ E]; discriminate E|tauto].
  - split; [intros [_ E]; discriminate E|tauto].
Qed.
Lemma frame_rel t t' : d_frame t = d_frame t' <-> t = t'.
Proof. destruct t, t'; split; try reflexivity; discriminate. Qed.
Lemma window_rel_iff w w' : d_window asdict w = d_window asdict w' <-> rel_window D w w'.
Proof.
  destruct w as [p ob ps fr s e], w' as [p' ob' ps' fr' s' e']; cbn [d_window]; unfold rel_window; cbn [w_parent w_orderby w_partitions w_frame w_start w_end]. keys.
  rewrite str_opt, orders_rel, list_rel, frame_rel, !bound_rel_iff. reflexivity.
Qed.
Lemma window_some w : d_window asdict w <> DNone.
Proof. destruct w; discriminate. Qed.
Lemma fopts_rel_iff fo fo' : d_fopts asdict fo = d_fopts asdict fo' <-> rel_fopts D fo fo'.
Proof.
  destruct fo as [ob fi wi ig], fo' as [ob' fi' wi' ig']; cbn [d_fopts]; unfold rel_fopts; cbn [fo_orderby fo_filter fo_window fo_ignore]. keys.
  rewrite orders_rel, given_rel, (opt_rel (d_window asdict) (rel_window D) window_some window_rel_iff).
  assert (E : DEnum (if ig then "NullTreatment.IGNORE" else "NullTreatment.RESPECT")
              = DEnum (if ig' then "NullTreatment.IGNORE" else "NullTreatment.RESPECT") <-> ig = ig')
    by (destruct ig, ig'; split; try reflexivity; discriminate).
  rewrite E. reflexivity.
Qed.
Lemma qattrs_rel_iff q q' : d_qattrs asdict q = d_qattrs asdict q' <-> rel_qattrs D q q'.
Proof.
  destruct q as [wi ob off lim], q' as [wi' ob' off' lim']; cbn [d_qattrs]; unfold rel_qattrs; cbn [q_with q_orderby q_offset q_limit]. keys.
  rewrite !int_opt, orders_rel, list_rel. reflexivity.
Qed.
Lemma vals_rel (l l' : list node) : DList (map asdict l) = DList (map asdict l') <-> Forall2 D l l'.
Proof. apply dlist_rel. Qed.
Lemma group_rel_iff g g' : d_group asdict g = d_group asdict g' <-> rel_group D g g'.
Proof.
  assert (O : forall l l', (exists m m', Some l = Some m /\ Some l' = Some m' /\ Forall2 D m m') <-> Forall2 D l l').
  { intros l l'. split; [intros (m & m' & [= ->] & [= ->] & H); exact H|eauto]. }
  assert (N : forall l, (exists m m', Some l = Some m /\ None = Some m' /\ Forall2 D m m') <-> False).
  { intros l. split; [intros (m & m' & _ & E & _); discriminate E|tauto]. }
  assert (N' : forall l, (exists m m', None = Some m /\ Some l = Some m' /\ Forall2 D m m') <-> False).
  { intros l. split; [intros (m & m' & E & _); discriminate E|tauto]. }
  destruct g, g'; cbn [d_group rel_group one_group]; rewrite ?O, ?N, ?N'; keys; rewrite ?vals_rel; try reflexivity;
    try (split; [discriminate|tauto]).
  rewrite dlist_rel. apply forall2_iff. intros x y. keys. apply vals_rel.
Qed.
Lemma groupby_rel_iff g g' : d_groupby asdict g = d_groupby asdict g' <-> rel_groupby D g g'.
Proof.
  destruct g as [gs d], g' as [gs' d']; cbn [d_groupby]; unfold rel_groupby; cbn [g_groups g_distinct]. keys.
  rewrite dlist_rel, quant_rel, (forall2_iff _ _ group_rel_iff). reflexivity.
Qed.
Lemma groupby_some g : d_groupby asdict g <> DNone.
Proof. destruct g; discriminate. Qed.
Lemma crit_rel_iff c c' : d_crit asdict c = d_crit asdict c' <-> rel_crit D c c'.
Proof.
  destruct c, c'; cbn [d_crit rel_crit]; keys; rewrite ?strs_rel; try reflexivity; split; try discriminate; tauto.
Qed.
Lemma crit_some c : d_crit asdict c <> DNone.
Proof. destruct c; discriminate. Qed.
Lemma join_rel t t' : d_join_type t = d_join_type t' <-> t = t'.
Proof. destruct t, t'; split; try reflexivity; discriminate. Qed.
Lemma branch_rel_iff x y : d_branch asdict x = d_branch asdict y <-> rel_pair D x y.
Proof. destruct x, y; cbn [d_branch]; unfold rel_pair; cbn [fst snd]. keys. reflexivity. Qed.
Lemma else_rel_iff x y : d_else asdict x = d_else asdict y <-> asdict x = asdict y.
Proof. unfold d_else. keys. reflexivity. Qed.
Lemma else_some x : d_else asdict x <> DNone.
Proof. discriminate. Qed.

(** ** Numbers *)
Lemma pow_one p : (1 ^ p)%positive = 1%positive.
Proof. apply Pos2Z.inj. rewrite Pos2Z.inj_pow. now apply Z.pow_1_l. Qed.
Lemma dec_value_num d : Qeq (dec_value d) (inject_Z (if dneg d then - Z.of_N (dcoef d) else Z.of_N (dcoef d)) * (Qpower (10#1) (dexp d))).
Proof.
  unfold dec_value. set (c := (if dneg d then - Z.of_N (dcoef d) else Z.of_N (dcoef d))%Z).
  destruct (Z.leb_spec 0 (dexp d)) as [H|H].
  - destruct (dexp d) as [|p|p]; [| |now elim H].
    + cbn [Qpower]. unfold inject_Z, Qeq. cbn [Qnum Qden Qmult]. change (10 ^ 0)%Z with 1%Z. lia.
    + cbn [Qpower]. rewrite Qpower_decomp_positive. unfold inject_Z, Qeq. cbn [Qnum Qden Qmult].
      rewrite pow_one. lia.
  - rewrite Qred_correct. destruct (dexp d) as [|p|p]; [lia|lia|].
    cbn [Qpower Z.opp]. rewrite Qpower_decomp_positive. unfold inject_Z, Qinv, Qeq. cbn [Qnum Qden Qmult Z.opp].
    rewrite pow_one. rewrite <- Pos2Z.inj_pow. cbn [Qnum Qden Z.to_pos]. rewrite ?Z.mul_1_r, ?Pos.mul_1_l. reflexivity.
Qed.
Lemma int_reduced z : Qred (Qmake z 1) = Qmake z 1.
Proof.
  unfold Qred. pose proof (Z.ggcd_gcd z 1) as G. pose proof (Z.ggcd_correct_divisors z 1) as C.
  rewrite Z.gcd_1_r in G. destruct (Z.ggcd z 1) as [g [a b]]. cbn [fst snd] in *. subst g.
  destruct C as [-> C]. rewrite Z.mul_1_l in *. now subst b.
Qed.
Lemma dec_reduced d : Qred (dec_value d) = dec_value d.
Proof.
  unfold dec_value. destruct (0 <=? dexp d)%Z; [apply int_reduced|]. apply Qred_complete, Qred_correct.
Qed.
Lemma lit_num l q : number l = Some q -> exists q', d_lit l = DNum q' /\ Qeq q' q /\ Qred q' = q'.
Proof.
  destruct l; try discriminate; intros [= <-]; cbn [d_lit].
  - eexists. split; [reflexivity|]. split; [destruct b; reflexivity|apply int_reduced].
  - eexists. split; [reflexivity|]. split; [reflexivity|apply int_reduced].
  - eexists. split; [reflexivity|]. split; [apply dec_value_num|apply dec_reduced].
Qed.
Lemma lit_text l : number l = None -> forall q, d_lit l <> DNum q.
Proof. destruct l; discriminate. Qed.
Lemma lit_rel l l' : d_lit l = d_lit l' <-> same_literal l l'.
Proof.
  unfold same_literal. destruct (number l) as [q|] eqn:E, (number l') as [q'|] eqn:E'.
  - destruct (lit_num l q E) as (r & -> & R & C), (lit_num l' q' E') as (r' & -> & R' & C'). split.
    + intros [= <-]. rewrite <- R, <- R'. reflexivity.
    + intros H. rewrite <- R, <- R' in H. apply Qred_complete in H. congruence.
  - destruct (lit_num l q E) as (r & -> & _). split; [intro H; symmetry in H; now apply lit_text in H|tauto].
  - destruct (lit_num l' q' E') as (r & -> & _). split; [intro H; now apply lit_text in H|tauto].
  - split; [|congruence]. destruct l, l'; try discriminate E; try discriminate E'; cbn [d_lit]; congruence.
Qed.

(** ** Named windows *)
Lemma insert_perm x l : Permutation (insert_key x l) (x :: l).
Proof.
  induction l as [|y l IH]; cbn [insert_key]; [reflexivity|]. destruct (String.leb (fst x) (fst y)); [reflexivity|].
  rewrite IH. apply perm_swap.
Qed.
Lemma sort_perm l : Permutation (sort_keys l) l.
Proof. induction l as [|x l IH]; [constructor|]. cbn [sort_keys fold_right]. rewrite insert_perm. now constructor. Qed.

Lemma compare_trans a : forall b c, String.compare a b <> Gt -> String.compare b c <> Gt -> String.compare a c <> Gt.
Proof.
  induction a as [|x a IH]; intros [|y b] [|z c]; cbn [String.compare]; try congruence.
  destruct (Ascii.compare x y) eqn:E, (Ascii.compare y z) eqn:F; intros H G; try congruence.
  - apply Ascii.compare_eq_iff in E, F. subst. 
    assert (R : Ascii.compare z z = Eq) by (unfold Ascii.compare; apply N.compare_refl). rewrite R. now apply (IH b c).
  - apply Ascii.compare_eq_iff in E. subst. rewrite F. discriminate.
  - apply Ascii.compare_eq_iff in F. subst. rewrite E. discriminate.
  - assert (R : Ascii.compare x z = Lt).
    { unfold Ascii.compare in *. rewrite N.compare_lt_iff in *. eapply N.lt_trans; eassumption. }
    rewrite R. discriminate.
Qed.
Lemma leb_trans a b c : String.leb a b = true -> String.leb b c = true -> String.leb a c = true.
Proof.
  unfold String.leb. pose proof (compare_trans a b c) as T.
  destruct (String.compare a b); try discriminate; destruct (String.compare b c); try discriminate; intros _ _;
    (destruct (String.compare a c); [reflexivity|reflexivity|]); now elim T.
Qed.
Lemma leb_other a b : a <> b -> String.leb a b = negb (String.leb b a).
Proof.
  intro N. destruct (String.leb a b) eqn:E, (String.leb b a) eqn:F; try reflexivity.
  - now elim N; apply String.leb_antisym.
  - destruct (String.leb_total a b); congruence.
Qed.
Lemma insert_insert x y l : fst x <> fst y -> insert_key x (insert_key y l) = insert_key y (insert_key x l).
Proof.
  intro N. induction l as [|z l IH]; cbn [insert_key].
  - rewrite (leb_other _ _ N). destruct (String.leb (fst y) (fst x)); reflexivity.
  - pose proof (leb_trans (fst x) (fst y) (fst z)) as T1. pose proof (leb_trans (fst y) (fst x) (fst z)) as T2.
    pose proof (leb_other _ _ N) as O.
    destruct (String.leb (fst x) (fst z)) eqn:X, (String.leb (fst y) (fst z)) eqn:Y; cbn [insert_key]; rewrite ?X, ?Y, ?O;
      destruct (String.leb (fst y) (fst x)) eqn:YX; cbn [negb] in *; try reflexivity.
    + exfalso. assert (false = true) by (apply T2; auto). discriminate.
    + exfalso. assert (false = true) by (apply T1; auto). discriminate.
    + now rewrite IH.
    + now rewrite IH.
Qed.
Lemma sort_same l l' : Permutation l l' -> NoDup (map fst l) -> sort_keys l = sort_keys l'.
Proof.
  induction 1 as [|x l l' H IH|x y l|l l' l'' H1 IH1 H2 IH2]; intro N.
  - reflexivity.
  - cbn [sort_keys fold_right]. fold (sort_keys l) (sort_keys l'). cbn [map] in N. inversion N; subst. now rewrite IH.
  - cbn [sort_keys fold_right]. apply insert_insert. cbn [map] in N. inversion N as [|? ? A B]; subst.
    intro E. apply A. left. auto.
  - rewrite IH1 by assumption. apply IH2. eapply Permutation_NoDup; [|exact N]. now apply Permutation_map.
Qed.
Lemma named_rel_iff x y : d_named asdict x = d_named asdict y <-> rel_named D x y.
Proof.
  destruct x as [n w], y as [n' w']. cbn [d_named]. unfold rel_named. cbn [fst snd]. rewrite <- window_rel_iff.
  split; [intro E; now injection E|intros [-> ->]; reflexivity].
Qed.
Lemma map_named_rel l l' : map (d_named asdict) l = map (d_named asdict) l' <-> Forall2 (rel_named D) l l'.
Proof.
  split.
  - revert l'. induction l as [|x l IH]; intros [|y l'] E; try discriminate E; [constructor|]. cbn [map] in E.
    assert (E1 : d_named asdict x = d_named asdict y) by congruence.
    assert (E2 : map (d_named asdict) l = map (d_named asdict) l') by congruence.
    constructor; [now apply named_rel_iff|now apply IH].
  - induction 1 as [|x y l l' H _ IH]; [reflexivity|]. cbn [map]. apply named_rel_iff in H. congruence.
Qed.
Definition d_windows (ws : list (string * window node)) : dval :=
  match ws with [] => DNone | _ => DDict (sort_keys (map (d_named asdict) ws)) end.
Lemma keys_named ws : map fst (map (d_named asdict) ws) = map fst ws.
Proof. rewrite map_map. apply map_ext. intros [n w]; reflexivity. Qed.
Lemma sort_windows ws ws' : NoDup (map fst ws) ->
  (sort_keys (map (d_named asdict) ws) = sort_keys (map (d_named asdict) ws')
   <-> exists ws2, Permutation ws' ws2 /\ Forall2 (rel_named D) ws ws2).
Proof.
  intro N. split.
  - intro E. assert (P : Permutation (map (d_named asdict) ws) (map (d_named asdict) ws')).
    { rewrite <- (sort_perm (map (d_named asdict) ws)), E. apply sort_perm. }
    apply Permutation_map_inv in P as (ws2 & E2 & P). exists ws2. split; [exact P|]. now apply map_named_rel.
  - intros (ws2 & P & R). apply map_named_rel in R. rewrite R. symmetry. apply sort_same; [now apply Permutation_map|].
    rewrite keys_named. eapply Permutation_NoDup; [apply Permutation_map, Permutation_sym, P|].
    rewrite <- (keys_named ws2), <- R, keys_named. exact N.
Qed.
Lemma windows_rel ws ws' : NoDup (map fst ws) ->
  (d_windows ws = d_windows ws' <-> exists ws2, Permutation ws' ws2 /\ Forall2 (rel_named D) ws ws2).
Proof.
  intro N. rewrite <- (sort_windows ws ws' N). unfold d_windows.
  destruct ws as [|x ws], ws' as [|x' ws']; [now split| | |apply dict].
  - split; [discriminate|]. intro E. apply (f_equal (@length _)) in E.
    rewrite (Permutation_length (sort_perm (map (d_named asdict) (x' :: ws')))) in E. discriminate E.
  - split; [discriminate|]. intro E. apply (f_equal (@length _)) in E.
    rewrite (Permutation_length (sort_perm (map (d_named asdict) (x :: ws)))) in E. discriminate E.
Qed.

(** ** Functions *)
Lemma func_built f l fo : built (NFunc f l fo) ->
  Forall (fun x => x <> NNone) l /\ fn_special f = false /\ arity_ok f (length l) = true /\ (is_aggregate f = false -> fo = no_fopts).
Proof.
  intros [t B]. cbn [check] in B. unbind.
  split. { clear -E. revert a E. induction l as [|x l IH]; intros a E; [constructor|]. cbn [each] in E. unbind. constructor; [|eauto].
           intros ->. discriminate E0. }
  destruct (fn_special f); [discriminate|]. destruct (arity_ok f (length l)); [|discriminate]. cbn [negb] in B.
  split; [reflexivity|]. split; [reflexivity|]. intros A. rewrite A in B. cbn [negb andb] in B.
  destruct fo as [[|] [|] [|] [|]]; cbn [fopts_empty negb] in B; try discriminate B. reflexivity.
Qed.
Lemma fn_args_params f vals : fn_variadic f = false -> fn_args f vals = named_args (params f) vals.
Proof. intro V. unfold fn_args, params. now rewrite V. Qed.
Lemma params_values f : fn_variadic f = false -> params f <> ["values"].
Proof. destruct f; discriminate. Qed.
Lemma params_orderby f l : params f <> "orderby" :: l.
Proof. destruct f; discriminate. Qed.
Lemma named_rel names : forall vals vals', length vals <= length names -> length vals' <= length names ->
  Forall (fun v => v <> DNone) vals -> Forall (fun v => v <> DNone) vals' ->
  (named_args names vals = named_args names vals' <-> vals = vals').
Proof.
  induction names as [|k names IH]; intros [|v vals] [|v' vals'] L L' F F'; cbn [length] in *; try lia; cbn [named_args]; try (split; reflexivity).
  - rewrite kv. inversion F'; subst. split; [intros [E _]; congruence|discriminate].
  - rewrite kv. inversion F; subst. split; [intros [E _]; congruence|discriminate].
  - inversion F; inversion F'; subst. rewrite kv, IH by (assumption || lia). split; [intros [-> ->]; reflexivity|intro E; now injection E].
Qed.
Lemma values_some l : Forall (fun x => x <> NNone) l -> Forall (fun v => v <> DNone) (map asdict l).
Proof. intro H. apply Forall_map. eapply Forall_impl; [|exact H]. intros x N E. now apply node_none in E. Qed.
Lemma args_rel f f' l l' fo fo' : built (NFunc f l fo) -> built (NFunc f' l' fo') -> params f = params f' ->
  (fn_args f (map asdict l) = fn_args f' (map asdict l') <-> Forall2 D l l').
Proof.
  intros B B' Q. apply func_built in B as (N & _ & A & _), B' as (N' & _ & A' & _).
  rewrite <- (map_rel asdict l l').
  assert (V : fn_variadic f = fn_variadic f').
  { destruct (fn_variadic f) eqn:V, (fn_variadic f') eqn:V'; try reflexivity; exfalso.
    - apply (params_values f' V'). rewrite <- Q. unfold params. now rewrite V.
    - apply (params_values f V). rewrite Q. unfold params. now rewrite V'. }
  destruct (fn_variadic f) eqn:V1.
  - unfold fn_args. rewrite V1, <- V. rewrite kv0. split; congruence.
  - rewrite !fn_args_params by congruence. rewrite <- Q. apply named_rel; try (now apply values_some).
    + rewrite map_length. unfold params. rewrite V1. now apply fn_arity_attrs.
    + rewrite map_length, Q. unfold params. rewrite <- V. now apply fn_arity_attrs.
Qed.
(** The keys of the dict of a function. *)
Definition fkeys (f : fn) : list string :=
  "data_type" :: (if is_aggregate f then ["orderby"; "filter_"; "window"; "null_treatment"] else []) ++ params f.
Definition dkeys (d : dval) : list string := match d with DDict l => map fst l | _ => [] end.
Lemma named_keys names : forall vals, map fst (named_args names vals) = names.
Proof. induction names as [|k names IH]; intros [|v vals]; cbn [named_args map fst]; rewrite ?IH; reflexivity. Qed.
Lemma args_keys f vals : map fst (fn_args f vals) = params f.
Proof. unfold fn_args, params. destruct (fn_variadic f); [reflexivity|apply named_keys]. Qed.
Lemma func_keys f l fo : dkeys (asdict (NFunc f l fo)) = fkeys f.
Proof.
  cbn [asdict]. unfold fkeys. destruct (is_aggregate f); cbn [dkeys]; rewrite d_ty_pair; cbn [map fst app].
  - rewrite map_app, args_keys. destruct fo. reflexivity.
  - now rewrite args_keys.
Qed.
Lemma fkeys_split f f' : fkeys f = fkeys f' -> is_aggregate f = is_aggregate f' /\ params f = params f'.
Proof.
  unfold fkeys. intro E. assert (E1 := f_equal (@tl string) E). cbn [tl] in E1. clear E.
  destruct (is_aggregate f), (is_aggregate f'); cbn [app] in E1.
  - now injection E1.
  - now elim (params_orderby f' _ (eq_sym E1)).
  - now elim (params_orderby f _ E1).
  - auto.
Qed.
Definition eqb_keys (a b : list string) : bool := if list_eq_dec string_dec a b then true else false.
Definition other_keys : list (list string) :=
  [["data_type"; "name"; "table"]; ["data_type"; "value"; "alias"]; ["data_type"; "table"]; ["data_type"; "star"; "aliases"];
   ["data_type"; "name"]; ["data_type"; "inputs"; "expr"]; ["data_type"; "left"; "right"];
   ["data_type"; "value"; "lower"; "upper"]; ["data_type"; "value"; "query"]; ["data_type"; "value"; "exprs"];
   ["data_type"; "value"; "pattern"; "escape"]; ["data_type"; "value"; "type_name"];
   ["data_type"; "value"; "from_interval"; "to_interval"]; ["data_type"; "value"; "index"];
   ["data_type"; "branches"; "else_"; "value"]; ["data_type"; "precision"];
   ["data_type"; "orderby"; "filter_"; "window"; "null_treatment"; "value"; "separator"; "overflow_filler"];
   ["data_type"; "string"; "normal_form"];
   ["data_type"; "offset"; "limit"; "orderby"; "with_"; "select"; "from_"; "where"; "groupby"; "having"; "select_quantifier"; "window"];
   ["data_type"; "offset"; "limit"; "orderby"; "with_"; "left_query"; "right_query"; "set_quantifier"];
   ["data_type"; "offset"; "limit"; "orderby"; "with_"; "table"];
   ["data_type"; "offset"; "limit"; "orderby"; "with_"; "exprs"];
   ["name"; "schema"; "catalog"; "_column_schema"]; ["relation"; "alias"; "column_aliases"];
   ["left_relation"; "right_relation"; "config"]; ["arrays"; "with_ordinality"]; ["subquery"];
   ["relation"; "sample_type"; "percentage"]; []].
Lemma fkeys_other f : existsb (eqb_keys (fkeys f)) other_keys = false.
Proof. destruct f; vm_compute; reflexivity. Qed.
Lemma fkeys_value f : fn_special f = false -> fkeys f = ["data_type"; "value"] ->
  is_aggregate f = false /\ params f = ["value"] /\ fn_arity f = (1, Some 1).
Proof. destruct f; intros S K; try discriminate S; try discriminate K; repeat split. Qed.
Lemma fkeys_values f : fkeys f = ["data_type"; "values"] -> f = FConcatenate \/ f = FCoalesce.
Proof. destruct f; intros K; try discriminate K; auto. Qed.
Lemma fkeys_expr f : fkeys f = ["data_type"; "expr"] -> f = FTry.
Proof. destruct f; intros K; try discriminate K; auto. Qed.
Lemma arity_one {A} f (l : list A) : fn_arity f = (1, Some 1) -> arity_ok f (length l) = true -> exists x, l = [x].
Proof.
  intros E A1. unfold arity_ok in A1. rewrite E in A1. destruct l as [|x [|y l]]; try discriminate A1. eauto.
Qed.

Lemma one_value_dict a v : one_value a = Some v -> asdict a = DDict [("data_type", d_ty a); ("value", asdict v)] /\ is_value a = true.
Proof.
  destruct a; try discriminate; cbn [one_value].
  - intros [= ->]. now split.
  - destruct args as [|x [|]]; try discriminate. destruct (is_aggregate f) eqn:A; [discriminate|].
    destruct (params f) as [|p [|]] eqn:Q; try discriminate. destruct (String.eqb_spec p "value") as [->|]; [|discriminate].
    intros [= ->]. split; [|reflexivity]. cbn [asdict]. rewrite A, d_ty_pair. unfold fn_args, params in *.
    destruct (fn_variadic f); [discriminate Q|]. rewrite Q. reflexivity.
Qed.
Lemma many_values_dict a l : many_values a = Some l -> asdict a = DDict [("data_type", d_ty a); ("values", DList (map asdict l))] /\ is_value a = true.
Proof.
  destruct a; try discriminate; cbn [many_values]; try (intros [= ->]; now split).
  destruct f; try discriminate; intros [= ->]; split; reflexivity.
Qed.
Lemma one_expr_dict a v : one_expr a = Some v -> asdict a = DDict [("data_type", d_ty a); ("expr", asdict v)] /\ is_value a = true.
Proof.
  destruct a; try discriminate; cbn [one_expr]; try (intros [= ->]; now split).
  destruct f; try discriminate. destruct args as [|x [|]]; try discriminate. intros [= ->]. split; reflexivity.
Qed.

(** * Objects of the same kind *)
Definition kind (e : node) : nat :=
  match e with
  | NNone => 0 | NLit _ _ => 1 | NField _ _ _ => 2 | NAliased _ _ => 3 | NStar _ _ => 4 | NAliasedStar _ _ => 5
  | NVar _ => 6 | NLambda _ _ => 7 | NUn _ _ => 8 | NBin _ _ _ => 9 | NBetween _ _ _ => 10 | NArray _ => 11
  | NInQuery _ _ => 12 | NInList _ _ => 13 | NLike _ _ _ => 14 | NTypeCtor _ _ => 15 | NRow _ => 16
  | NInterval _ _ _ => 17 | NCast _ _ _ => 18 | NSubscript _ _ => 19 | NCase _ _ _ => 20 | NFunc _ _ _ => 21
  | NDateTime _ _ => 22 | NListAgg _ _ _ _ => 23 | NNormalize _ _ => 24 | NSelect _ _ _ _ _ _ _ _ => 25
  | NSetQuery _ _ _ _ _ => 26 | NTableQuery _ _ => 27 | NValues _ _ => 28 | NTable _ _ _ => 29
  | NAliasedRel _ _ _ => 30 | NJoin _ _ _ _ _ => 31 | NUnnest _ _ => 32 | NLateral _ => 33 | NSample _ _ _ => 34
  end.
Lemma same_kind P a b : same P a b -> kind a = kind b.
Proof. destruct a, b; cbn [same]; intro H; try destruct H; reflexivity. Qed.
Lemma str_rel s s' : DStr s = DStr s' <-> s = s'.
Proof. split; congruence. Qed.
Lemma int_rel z z' : d_int z = d_int z' <-> z = z'.
Proof. unfold d_int. split; congruence. Qed.
Lemma inputs_rel vs vs' :
  DList (map (fun n => DDict [("data_type", d_type unknown); ("name", DStr n)]) vs)
  = DList (map (fun n => DDict [("data_type", d_type unknown); ("name", DStr n)]) vs') <-> vs = vs'.
Proof.
  split; [|now intros ->]. intro E. assert (E' : map (fun n => DDict [("data_type", d_type unknown); ("name", DStr n)]) vs
    = map (fun n => DDict [("data_type", d_type unknown); ("name", DStr n)]) vs') by congruence. clear E.
  revert vs' E'. induction vs as [|v vs IH]; intros [|v' vs'] E; try discriminate E; [reflexivity|].
  cbn [map] in E. injection E as -> E. now rewrite (IH vs' E).
Qed.
Lemma app_rel {A} (a b c d : list A) : length a = length c -> (a ++ b = c ++ d <-> a = c /\ b = d).
Proof. intro L. split; [now apply app_split|intros [-> ->]; reflexivity]. Qed.
Lemma qattrs_length (q : qattrs node) : length (d_qattrs asdict q) = 4.
Proof. destruct q; reflexivity. Qed.
Lemma fopts_length (q : fopts node) : length (d_fopts asdict q) = 4.
Proof. destruct q; reflexivity. Qed.
Lemma counts_rel b b' : d_counts b = d_counts b' <-> b = b'.
Proof. destruct b, b'; split; reflexivity || discriminate. Qed.
Lemma overflow_rel (o o' : option (bool * string)) :
  d_opt (fun cf => let '(c, fl) := cf in DDict [("count_indication", d_counts c); ("filler", DStr fl)]) o
  = d_opt (fun cf => let '(c, fl) := cf in DDict [("count_indication", d_counts c); ("filler", DStr fl)]) o' <-> o = o'.
Proof.
  destruct o as [[c f]|], o' as [[c' f']|]; cbn [d_opt]; try (split; (discriminate || reflexivity)).
  keys. rewrite counts_rel, str_rel. split; [intros [-> ->]; reflexivity|intro E; now injection E].
Qed.
Lemma form_rel o o' :
  d_opt (fun n => DEnum (match n with NFD => "NormalForm.NFD"
                | NFC => "NormalForm.NFC" | NFKD => "NormalForm.NFKD" | NFKC => "NormalForm.NFKC" end)) o
  = d_opt (fun n => DEnum (match n with NFD => "NormalForm.NFD"
                | NFC => "NormalForm.NFC" | NFKD => "NormalForm.NFKD" | NFKC => "NormalForm.NFKC" end)) o' <-> o = o'.
Proof. destruct o as [[]|], o' as [[]|]; split; try reflexivity; discriminate. Qed.
Lemma sample_rel st st' :
  DEnum (match st with Bernoulli => "SampleType.BERNOULLI" | System => "SampleType.SYSTEM" end)
  = DEnum (match st' with Bernoulli => "SampleType.BERNOULLI" | System => "SampleType.SYSTEM" end) <-> st = st'.
Proof. destruct st, st'; split; try reflexivity; discriminate. Qed.
Lemma imp_true (P : Prop) : (true = true -> P) <-> P.
Proof. split; auto. Qed.
Lemma imp_false (P : Prop) : (false = true -> P) <-> True.
Proof. split; [auto|discriminate]. Qed.
Lemma fopts_one ob ob' : d_fopts asdict (mkFopts ob None None false) = d_fopts asdict (mkFopts ob' None None false) <-> Forall2 (rel_order D) ob ob'.
Proof. rewrite fopts_rel_iff. unfold rel_fopts. cbn [fo_orderby fo_filter fo_window fo_ignore given rel_opt]. tauto. Qed.

Lemma same_level a b : built a -> built b -> keyed a -> kind a = kind b ->
  (asdict a = asdict b <-> (is_value a = true -> d_ty a = d_ty b) /\ same D a b).
Proof.
  intros Ba Bb Wa Kd. destruct a, b; try discriminate Kd; clear Kd.
  22:{ (* functions *)
    cbn [is_value]. rewrite imp_true. cbn [same]. split.
    - intro E. assert (Q := f_equal dkeys E). rewrite !func_keys in Q. apply fkeys_split in Q as [A Q].
      cbn [asdict] in E. rewrite <- A in E. rewrite !d_ty_pair in E. destruct (is_aggregate f) eqn:Ag.
      + rewrite dict, kv, app_rel in E by (now rewrite !fopts_length). destruct E as (T & F & R).
        rewrite fopts_rel_iff in F. rewrite (args_rel _ _ _ _ _ _ Ba Bb Q) in R. auto.
      + rewrite dict, kv in E. destruct E as (T & R). rewrite (args_rel _ _ _ _ _ _ Ba Bb Q) in R.
        split; [exact T|]. split; [exact A|]. split; [exact Q|]. split; [exact R|].
        apply func_built in Ba as (_ & _ & _ & Fo), Bb as (_ & _ & _ & Fo'). rewrite Fo, Fo' by congruence.
        now apply fopts_rel_iff.
    - intros (T & A & Q & R & F). cbn [asdict]. rewrite <- A, !d_ty_pair, T.
      apply (args_rel _ _ _ _ _ _ Ba Bb Q) in R. apply fopts_rel_iff in F. rewrite R, F. reflexivity. }
  all: cbn [asdict is_value same]; rewrite ?imp_true, ?imp_false, ?d_ty_pair; keys;
    rewrite ?app_rel by (now rewrite ?qattrs_length, ?fopts_length); keys;
    rewrite ?fopts_one, ?str_rel, ?int_rel, ?vals_rel, ?tref_rel_iff, ?strs_rel, ?strl_rel, ?inputs_rel, ?given_rel, ?str_opt,
      ?overflow_rel, ?form_rel, ?sample_rel, ?qattrs_rel_iff, ?quant_rel, ?join_rel, ?bool_rel, ?lit_rel,
      ?(opt_rel (d_groupby asdict) (rel_groupby D) groupby_some groupby_rel_iff),
      ?(opt_rel (d_crit asdict) (rel_crit D) crit_some crit_rel_iff),
      ?(opt_rel (d_else asdict) D else_some else_rel_iff); try tauto.
  - (* CASE *) rewrite dlist_rel, (forall2_iff _ _ branch_rel_iff). tauto.
  - (* SELECT *) fold (d_windows windows) (d_windows windows0). rewrite (windows_rel windows windows0 Wa). tauto.
  - (* a table *) split; [tauto|]. intros (_ & -> & -> & ->). auto.
Qed.

(** * Objects of different kinds *)
Ltac by_keys :=
  match goal with
  | Q : fkeys ?f = _ |- _ =>
      exfalso; let N := fresh "N" in pose proof (fkeys_other f) as N; rewrite Q in N; vm_compute in N; discriminate N
  | Q : _ = fkeys ?f |- _ =>
      exfalso; let N := fresh "N" in pose proof (fkeys_other f) as N; rewrite <- Q in N; vm_compute in N; discriminate N
  end.
(** The keys of the other classes. *)
Definition nkeys (e : node) : list string :=
  match e with
  | NFunc f _ _ => fkeys f
  | NNone => nth 28 other_keys []
  | NLit _ _ | NUn _ _ => ["data_type"; "value"]
  | NArray _ | NRow _ => ["data_type"; "values"]
  | NCast _ _ _ => ["data_type"; "expr"]
  | NField _ _ _ => nth 0 other_keys [] | NAliased _ _ => nth 1 other_keys [] | NStar _ _ => nth 2 other_keys []
  | NAliasedStar _ _ => nth 3 other_keys [] | NVar _ => nth 4 other_keys [] | NLambda _ _ => nth 5 other_keys []
  | NBin _ _ _ => nth 6 other_keys [] | NBetween _ _ _ => nth 7 other_keys [] | NInQuery _ _ => nth 8 other_keys []
  | NInList _ _ => nth 9 other_keys [] | NLike _ _ _ => nth 10 other_keys [] | NTypeCtor _ _ => nth 11 other_keys []
  | NInterval _ _ _ => nth 12 other_keys [] | NSubscript _ _ => nth 13 other_keys [] | NCase _ _ _ => nth 14 other_keys []
  | NDateTime _ _ => nth 15 other_keys [] | NListAgg _ _ _ _ => nth 16 other_keys [] | NNormalize _ _ => nth 17 other_keys []
  | NSelect _ _ _ _ _ _ _ _ => nth 18 other_keys [] | NSetQuery _ _ _ _ _ => nth 19 other_keys []
  | NTableQuery _ _ => nth 20 other_keys [] | NValues _ _ => nth 21 other_keys [] | NTable _ _ _ => nth 22 other_keys []
  | NAliasedRel _ _ _ => nth 23 other_keys [] | NJoin _ _ _ _ _ => nth 24 other_keys [] | NUnnest _ _ => nth 25 other_keys []
  | NLateral _ => nth 26 other_keys [] | NSample _ _ _ => nth 27 other_keys []
  end.
Lemma node_keys e : dkeys (asdict e) = nkeys e.
Proof.
  destruct e; try reflexivity; try (cbn [asdict dkeys]; rewrite ?d_ty_pair; destruct qa; reflexivity).
  apply func_keys.
Qed.
Lemma lit_node l x : d_lit l = asdict x -> x = NNone.
Proof.
  intro E. destruct (node_dict x) as [H|[m H]]; [now apply node_none|]. rewrite H in E. destruct l; discriminate E.
Qed.
Lemma func_one f l fo : built (NFunc f l fo) -> fkeys f = ["data_type"; "value"] ->
  exists x, one_value (NFunc f l fo) = Some x /\ x <> NNone.
Proof.
  intros B K. apply func_built in B as (N & S & A & _). destruct (fkeys_value f S K) as (Ag & Q & R).
  destruct (arity_one f l R A) as [x ->]. exists x. cbn [one_value]. rewrite Ag, Q. split; [reflexivity|]. now inversion N.
Qed.
Lemma func_many f l fo : fkeys f = ["data_type"; "values"] -> many_values (NFunc f l fo) = Some l.
Proof. intros K. destruct (fkeys_values f K) as [-> | ->]; reflexivity. Qed.
Lemma func_expr f l fo : built (NFunc f l fo) -> fkeys f = ["data_type"; "expr"] -> exists x, one_expr (NFunc f l fo) = Some x.
Proof.
  intros B K. apply func_built in B as (N & S & A & _). rewrite (fkeys_expr f K) in *.
  destruct (arity_one FTry l eq_refl A) as [x ->]. now exists x.
Qed.
Lemma un_some op v : built (NUn op v) -> v <> NNone.
Proof. intros [t B] ->. discriminate B. Qed.
Lemma two_keys k v w v' w' : DDict [("data_type", v); (k, w)] = DDict [("data_type", v'); (k, w')] -> w = w'.
Proof. congruence. Qed.
Lemma other_kind a b : built a -> built b -> asdict a = asdict b -> kind a = kind b \/ mixed D a b.
Proof.
  intros Ba Bb E. assert (Q := f_equal dkeys E). rewrite !node_keys in Q.
  assert (One : forall v w, one_value a = Some v -> one_value b = Some w -> mixed D a b).
  { intros v w Ha Hb. left. exists v, w. split; [exact Ha|]. split; [exact Hb|].
    apply one_value_dict in Ha as [Da _], Hb as [Db _]. rewrite Da, Db in E. now apply two_keys in E. }
  assert (Many : forall v w, many_values a = Some v -> many_values b = Some w -> mixed D a b).
  { intros v w Ha Hb. right. left. exists v, w. split; [exact Ha|]. split; [exact Hb|].
    apply many_values_dict in Ha as [Da _], Hb as [Db _]. rewrite Da, Db in E. apply two_keys in E. now apply vals_rel. }
  assert (Expr : forall v w, one_expr a = Some v -> one_expr b = Some w -> mixed D a b).
  { intros v w Ha Hb. right. right. exists v, w. split; [exact Ha|]. split; [exact Hb|].
    apply one_expr_dict in Ha as [Da _], Hb as [Db _]. rewrite Da, Db in E. now apply two_keys in E. }
  assert (LitL : forall l t x, a = NLit l t -> one_value b = Some x -> x <> NNone -> mixed D a b).
  { intros l t x -> Hb N. exfalso. apply one_value_dict in Hb as [Db _]. rewrite Db in E. cbn [asdict] in E.
    rewrite d_ty_pair in E. apply two_keys, lit_node in E. auto. }
  assert (LitR : forall l t x, b = NLit l t -> one_value a = Some x -> x <> NNone -> mixed D a b).
  { intros l t x -> Ha N. exfalso. apply one_value_dict in Ha as [Da _]. rewrite Da in E. cbn [asdict] in E.
    rewrite d_ty_pair in E. apply two_keys in E. symmetry in E. apply lit_node in E. auto. }
  clear E. destruct (Nat.eq_dec (kind a) (kind b)) as [Kd|Kd]; [now left|]. right.
  destruct a, b; try (now elim Kd); clear Kd; cbn [nkeys] in Q; try (vm_compute in Q; discriminate Q); try by_keys.
  - (* literal, unary *) eapply LitL; [reflexivity|reflexivity|]. eapply un_some, Bb.
  - (* literal, function *) destruct (func_one _ _ _ Bb (eq_sym Q)) as (x & Hx & N). eapply LitL; eauto.
  - eapply LitR; [reflexivity|reflexivity|]. eapply un_some, Ba.
  - destruct (func_one _ _ _ Bb (eq_sym Q)) as (x & Hx & N). eapply One; [reflexivity|exact Hx].
  - eapply Many; reflexivity.
  - eapply Many; [reflexivity|]. now apply func_many.
  - eapply Many; reflexivity.
  - eapply Many; [reflexivity|]. now apply func_many.
  - destruct (func_expr _ _ _ Bb (eq_sym Q)) as (x & Hx). eapply Expr; [reflexivity|exact Hx].
  - destruct (func_one _ _ _ Ba Q) as (x & Hx & N). eapply LitR; eauto.
  - destruct (func_one _ _ _ Ba Q) as (x & Hx & N). eapply One; [exact Hx|reflexivity].
  - eapply Many; [|reflexivity]. now apply func_many.
  - eapply Many; [|reflexivity]. now apply func_many.
  - destruct (func_expr _ _ _ Ba Q) as (x & Hx). eapply Expr; [exact Hx|reflexivity].
Qed.

(** * The theorems *)
Lemma typed a b : built a -> built b -> is_value a = true -> is_value b = true -> (d_ty a = d_ty b <-> data_type a = data_type b).
Proof.
  assert (H : forall a, built a -> is_value a = true -> exists t, data_type a = Ok t).
  { intros x [[t|] B] V; unfold data_type; rewrite B; [now exists t|]. now elim (value_typed x V B). }
  intros Ba Bb Va Vb. destruct (H a Ba Va) as [t T], (H b Bb Vb) as [u U]. unfold d_ty. rewrite T, U.
  split; [intro E; now rewrite (d_type_inj t u E)|congruence].
Qed.
Lemma kind_value a b : kind a = kind b -> is_value a = is_value b.
Proof. destruct a, b; try discriminate; reflexivity. Qed.
Lemma same_imp (P Q : node -> node -> Prop) : (forall x y, P x y -> Q x y) -> forall a b, same P a b -> same Q a b.
Proof.
  intros H.
  assert (L : forall l l', Forall2 P l l' -> Forall2 Q l l') by (induction 1; constructor; auto).
  assert (O : forall x y, rel_order P x y -> rel_order Q x y) by (unfold rel_order; intuition).
  assert (OL : forall l l', Forall2 (rel_order P) l l' -> Forall2 (rel_order Q) l l') by (induction 1; constructor; auto).
  assert (T : forall x y, rel_tref P x y -> rel_tref Q x y) by (intros [] []; cbn [rel_tref]; auto).
  assert (B : forall x y, rel_bound P x y -> rel_bound Q x y) by (intros [] []; cbn [rel_bound]; intuition).
  assert (W : forall x y, rel_window P x y -> rel_window Q x y) by (unfold rel_window; intuition).
  assert (F : forall x y, rel_fopts P x y -> rel_fopts Q x y).
  { unfold rel_fopts. intros x y (A1 & A2 & A3 & A4). split; [auto|]. split; [auto|]. split; [|exact A4].
    destruct (fo_window x), (fo_window y); cbn [rel_opt] in *; auto. }
  assert (A : forall x y, rel_qattrs P x y -> rel_qattrs Q x y) by (unfold rel_qattrs; intuition).
  assert (G : forall x y, rel_group P x y -> rel_group Q x y).
  { assert (LL : forall l l', Forall2 (Forall2 P) l l' -> Forall2 (Forall2 Q) l l') by (induction 1; constructor; auto).
    intros [] []; cbn [rel_group one_group]; auto; intros (l1 & l2 & X & Y & Z); exists l1, l2; auto. }
  assert (GL : forall l l', Forall2 (rel_group P) l l' -> Forall2 (rel_group Q) l l') by (induction 1; constructor; auto).
  assert (GB : forall x y, rel_opt (rel_groupby P) x y -> rel_opt (rel_groupby Q) x y).
  { intros [] []; cbn [rel_opt]; unfold rel_groupby; intuition. }
  assert (C : forall x y, rel_opt (rel_crit P) x y -> rel_opt (rel_crit Q) x y).
  { intros [[]|] [[]|]; cbn [rel_opt rel_crit]; auto. }
  assert (BR : forall l l', Forall2 (rel_pair P) l l' -> Forall2 (rel_pair Q) l l').
  { induction 1; constructor; auto. unfold rel_pair in *. intuition. }
  assert (EL : forall x y, rel_opt P x y -> rel_opt Q x y) by (intros [] []; cbn [rel_opt]; auto).
  assert (NL : forall l l', Forall2 (rel_named P) l l' -> Forall2 (rel_named Q) l l').
  { induction 1; constructor; auto. unfold rel_named in *. intuition. }
  intros a b. destruct a, b; cbn [same]; intuition.
  match goal with R : exists _, _ |- _ => destruct R as (ws2 & X & Y) end. exists ws2. auto.
Qed.
Lemma mixed_imp (P Q : node -> node -> Prop) : (forall x y, P x y -> Q x y) -> forall a b, mixed P a b -> mixed Q a b.
Proof.
  intros H a b [(v & w & X & Y & Z)|[(v & w & X & Y & Z)|(v & w & X & Y & Z)]].
  - left. exists v, w. split; [exact X|]. split; [exact Y|]. now apply H.
  - right. left. exists v, w. split; [exact X|]. split; [exact Y|]. clear X Y. induction Z; constructor; auto.
  - right. right. exists v, w. split; [exact X|]. split; [exact Y|]. now apply H.
Qed.

(** At the root the classes have to be the same. *)
Theorem C56_root a b : real a -> real b -> (equals a b = true <-> class_of a = class_of b /\ below a b).
Proof. intros Ra Rb. rewrite equals_iff, below_iff. tauto. Qed.
Print Assumptions C56_root.

(** Below it, exactly this is compared. *)
Theorem C56_parts a b : built a -> built b -> keyed a ->
  (below a b <-> (is_value a = true -> data_type a = data_type b) /\ (same below a b \/ mixed below a b)).
Proof.
  intros Ba Bb Wa. rewrite below_iff. split.
  - intro E. assert (M : kind a = kind b \/ mixed D a b) by now apply other_kind. destruct M as [Kd|M].
    + apply (same_level a b Ba Bb Wa Kd) in E as [T S]. split.
      * intros V. apply typed; auto. now rewrite <- (kind_value a b Kd).
      * left. revert S. apply same_imp. intros x y. apply below_iff.
    + split.
      * intros V. apply typed; auto.
        { destruct M as [(v & w & X & Y & Z)|[(v & w & X & Y & Z)|(v & w & X & Y & Z)]].
          - now apply one_value_dict in Y as [_ Y]. 
          - now apply many_values_dict in Y as [_ Y].
          - now apply one_expr_dict in Y as [_ Y]. }
        { assert (Va := first_is_type a V). rewrite <- Va, E. apply first_is_type.
          destruct M as [(v & w & X & Y & Z)|[(v & w & X & Y & Z)|(v & w & X & Y & Z)]].
          - now apply one_value_dict in Y as [_ Y]. 
          - now apply many_values_dict in Y as [_ Y].
          - now apply one_expr_dict in Y as [_ Y]. }
      * right. revert M. apply mixed_imp. intros x y. apply below_iff.
  - intros [T [S|M]].
    + pose proof (same_kind _ a b S) as Kd. apply (same_level a b Ba Bb Wa Kd). split.
      * intros V. apply typed; auto. now rewrite <- (kind_value a b Kd).
      * revert S. apply same_imp. intros x y. apply below_iff.
    + apply (mixed_imp _ D) in M; [|intros x y; apply below_iff].
      destruct M as [(v & w & X & Y & Z)|[(v & w & X & Y & Z)|(v & w & X & Y & Z)]].
      * apply one_value_dict in X as [X Va], Y as [Y Vb]. rewrite X, Y, Z. apply (typed a b Ba Bb Va Vb) in T; [|exact Va]. now rewrite T.
      * apply many_values_dict in X as [X Va], Y as [Y Vb]. rewrite X, Y. apply vals_rel in Z. rewrite Z.
        apply (typed a b Ba Bb Va Vb) in T; [|exact Va]. now rewrite T.
      * apply one_expr_dict in X as [X Va], Y as [Y Vb]. rewrite X, Y, Z. apply (typed a b Ba Bb Va Vb) in T; [|exact Va]. now rewrite T.
Qed.
Print Assumptions C56_parts.

(** In particular for queries, whatever their clauses hold: equal queries agree
    on LIMIT and OFFSET, on the directions of ORDER BY, and on DISTINCT. *)
Definition query_attrs (e : node) : option (qattrs node) :=
  match e with
  | NSelect _ _ _ _ _ _ _ qa | NSetQuery _ _ _ _ qa | NTableQuery _ qa | NValues _ qa => Some qa
  | _ => None
  end.
Definition query_distinct (e : node) : option bool :=
  match e with NSelect _ _ _ _ _ d _ _ | NSetQuery _ _ _ d _ => Some d | _ => None end.
Theorem C56_queries a b qa qb : built a -> built b -> keyed a -> equals a b = true ->
  query_attrs a = Some qa -> query_attrs b = Some qb ->
  q_limit qa = q_limit qb /\ q_offset qa = q_offset qb
  /\ map (fun o => (o_desc o, o_nulls_first o)) (q_orderby qa) = map (fun o => (o_desc o, o_nulls_first o)) (q_orderby qb)
  /\ length (q_with qa) = length (q_with qb) /\ query_distinct a = query_distinct b.
Proof.
  intros Ba Bb Wa E Qa Qb.
  assert (R : real a /\ real b) by (split; intros ->; discriminate). destruct R as [Ra Rb].
  apply (C56_root a b Ra Rb) in E as [C E]. apply (C56_parts a b Ba Bb Wa) in E as [_ [S|M]].
  - assert (G : rel_qattrs below qa qb /\ query_distinct a = query_distinct b).
    { destruct a; try discriminate Qa; destruct b; try discriminate C; cbn [query_attrs] in Qa, Qb; injection Qa as ->; injection Qb as ->;
        cbn [same] in S; intuition; cbn [query_distinct]; congruence. }
    destruct G as ((O & L & R & W) & Dt). split; [exact L|]. split; [exact O|]. split; [|split; [|exact Dt]].
    + clear -R. induction R as [|x y l l' (_ & X & Y) _ IH]; [reflexivity|]. cbn [map]. now rewrite X, Y, IH.
    + clear -W. induction W; cbn [length]; congruence.
  - exfalso. destruct M as [(v & w & X & _)|[(v & w & X & _)|(v & w & X & _)]]; destruct a; discriminate.
Qed.
Print Assumptions C56_queries.

(** Cases. *)
Local Definition w1 : window node := mkWindow None [mkOrder (column "y") true false] [] FTRows (BUnbounded false) BCurrent.
Local Definition w2 : window node := mkWindow (Some "w") [] [column "z"] FTRange (BUnbounded false) (BBounded true (NLit (LInt 2) integer)).
Local Definition query (op : binop) (n : lit) (cube : bool) (desc : bool) (lim : Z) (d : bool) (ws : list (string * window node)) : node :=
  NSelect [NFunc FMax [column "x"] no_fopts; NCast cube (column "y") integer] (Some (NTable "t" None None))
    (Some (NBin op (column "y") (NLit n integer)))
    (Some (mkG [if cube then GCube [column "y"] else GRollup [column "y"]] false)) None d ws
    (mkQ [] [mkOrder (column "x") desc false] None (Some lim)).
(** Not compared: the comparison, CUBE or ROLLUP, CAST or TRY_CAST, 1 or 1.0, the
    order of the named windows. *)
Example C56_case_equal :
  let a := query BEq (LInt 1) true true 3 false [("w", w1); ("v", w2)] in
  let b := query BLt (LDec (mkDec false 10 (-1))) false true 3 false [("v", w2); ("w", w1)] in
  built a /\ built b /\ keyed a /\ equals a b = true /\ a <> b.
Proof.
  cbv zeta. split; [now eexists|]. split; [now eexists|]. split; [|split; [vm_compute; reflexivity|discriminate]].
  cbn [keyed query map fst]. repeat constructor; cbn [In]; intuition discriminate.
Qed.
(** Compared: directions, LIMIT, DISTINCT, the value of a number, the frames. *)
Example C56_case_different :
  let a := query BEq (LInt 1) true true 3 false [("w", w1)] in
  built a /\ keyed a /\ map (equals a)
    [query BEq (LInt 2) true true 3 false [("w", w1)]; query BEq (LInt 1) true false 3 false [("w", w1)];
     query BEq (LInt 1) true true 4 false [("w", w1)]; query BEq (LInt 1) true true 3 true [("w", w1)];
     query BEq (LInt 1) true true 3 false [("w", w2)]; query BEq (LInt 1) true true 3 false [("v", w1)];
     query BEq (LInt 1) true true 3 false []] = repeat false 7.
Proof.
  cbv zeta. split; [now eexists|]. split; [|vm_compute; reflexivity].
  cbn [keyed query map fst]. repeat constructor; cbn [In]; intuition discriminate.
Qed.
(** Different kinds in the same place: -d and DATE(d); TRY(n) and CAST(n AS INTEGER). *)
Example C56_case_mixed :
  let d := NField "d" TRNone date in let n := NField "n" TRNone integer in
  let q x y := NSelect [x; y] None None None None false [] no_qattrs in
  let a := q (NUn UNeg d) (NFunc FTry [n] no_fopts) in let b := q (NFunc FDate [d] no_fopts) (NCast false n integer) in
  built a /\ built b /\ keyed a /\ equals a b = true /\ below (NUn UNeg d) (NFunc FDate [d] no_fopts).
Proof.
  cbv zeta. split; [now eexists|]. split; [now eexists|]. split; [constructor|]. split; vm_compute; reflexivity.
Qed.
