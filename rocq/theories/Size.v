(** The number of objects in an object, against the number of tokens of the text that it
    was read from.  Specification side of C76, with the proof over the rules of Accepts.v. *)
From Coq Require Import String List ZArith NArith Bool Arith Lia.
From Verif Require Import PyStr Types Inference Lexer TypeParser Functions Ast Walk Tokens NodeFacts Sql Parser Grammar Accepts
  PropertiesLambda.
Import ListNotations.
Open Scope nat_scope.
Open Scope string_scope.
Open Scope list_scope.

(** Columns, literals, operators, calls, relations, queries and so on: every instance of a
    class with a place in [node] (treeno/expression.py:177-1076, treeno/relation.py:185-1127),
    with everything below it.  Not counted: ordering terms,
    windows, frame bounds and grouping sets themselves (what is in them is), and names. *)
Fixpoint size (e : node) {struct e} : nat :=
  let s := size in
  let all := fun l => list_sum (map s l) in
  let opt := fun o => match o with Some x => s x | None => 0 end in
  let ord := fun l => list_sum (map (fun o => let 'mkOrder v _ _ := o in s v) l) in
  let bnd := fun b => match b with BBounded _ v => s v | _ => 0 end in
  let win := fun w => let 'mkWindow _ ob ps _ st en := w in ord ob + all ps + bnd st + bnd en in
  let grp := fun g => match g with GSet l | GCube l | GRollup l => all l | GSets ll => list_sum (map all ll) end in
  let qat := fun q => let 'mkQ wi ob _ _ := q in all wi + ord ob in
  1 +
  match e with
  | NNone | NLit _ _ | NVar _ | NTypeCtor _ _ | NInterval _ _ _ | NDateTime _ _ | NTable _ _ _ => 0
  | NField _ tr _ | NStar tr _ => match tr with TRVal v => s v | _ => 0 end
  | NAliased v _ | NAliasedStar v _ | NLambda _ v | NUn _ v | NCast _ v _ | NNormalize v _
  | NAliasedRel v _ _ | NLateral v => s v
  | NBin _ x y | NInQuery x y | NSubscript x y | NSample x _ y => s x + s y
  | NBetween x y z => s x + s y + s z
  | NArray vs | NRow vs | NUnnest vs _ => all vs
  | NInList v vs => s v + all vs
  | NLike x y z => s x + s y + opt z
  | NCase bs el v => list_sum (map (fun cv => let '(x, y) := cv in s x + s y) bs) + opt el + opt v
  | NFunc _ args fo =>
      all args + let 'mkFopts ob fi wi _ := fo in ord ob + opt fi + match wi with Some w => win w | None => 0 end
  | NListAgg v _ _ ob => s v + ord ob
  | NSelect sel fr wh gb hv _ ws qa =>
      all sel + opt fr + opt wh + match gb with Some g => let 'mkG gs _ := g in list_sum (map grp gs) | None => 0 end
      + opt hv + list_sum (map (fun nw => let '(_, w) := nw in win w) ws) + qat qa
  | NSetQuery _ l r _ qa => s l + s r + qat qa
  | NTableQuery t qa => s t + qat qa
  | NValues es qa => all es + qat qa
  | NJoin l r _ _ c => s l + s r + match c with Some (JOn x) => s x | _ => 0 end
  end.


Definition sizes (l : list node) : nat := list_sum (map size l).
Lemma sizes_cons x l : sizes (x :: l) = size x + sizes l. Proof. reflexivity. Qed.
Lemma sizes_app l m : sizes (l ++ m) = sizes l + sizes m.
Proof. unfold sizes. now rewrite map_app, list_sum_app. Qed.
Lemma sizes_orders l : list_sum (map (fun o => let 'mkOrder v _ _ := o in size v) l) = sizes (map o_value l).
Proof. unfold sizes. rewrite map_map. f_equal. apply map_ext. now intros []. Qed.
Lemma sizes_concat ll : sizes (concat ll) = list_sum (map sizes ll).
Proof. induction ll as [|l ll IH]; [reflexivity|]. cbn [concat]. rewrite sizes_app, IH. reflexivity. Qed.
Definition size_opt (o : option node) : nat := match o with Some x => size x | None => 0 end.
Lemma sizes_opt o : sizes (opt_kids o) = size_opt o.
Proof. destruct o; [|reflexivity]. unfold sizes. cbn. lia. Qed.
Definition below_window (w : window node) : nat := sizes (window_kids w).
Lemma sizes_window w :
  (let 'mkWindow _ ob ps _ st en := w in
   list_sum (map (fun o => let 'mkOrder v _ _ := o in size v) ob) + list_sum (map size ps)
   + match st with BBounded _ v => size v | _ => 0 end + match en with BBounded _ v => size v | _ => 0 end) = below_window w.
Proof.
  destruct w as [p ob ps f st en]. unfold below_window. cbn [window_kids]. rewrite !sizes_app, sizes_orders.
  change (list_sum (map size ps)) with (sizes ps). destruct st, en; cbn [bound_kids]; rewrite ?sizes_cons; change (sizes []) with 0; lia.
Qed.
Lemma sizes_group g :
  match g with GSet l | GCube l | GRollup l => list_sum (map size l) | GSets ll => list_sum (map (fun l => list_sum (map size l)) ll) end
  = sizes (group_kids g).
Proof. destruct g; try reflexivity. cbn [group_kids]. now rewrite sizes_concat. Qed.
Lemma sizes_qattrs q :
  (let 'mkQ wi ob _ _ := q in list_sum (map size wi) + list_sum (map (fun o => let 'mkOrder v _ _ := o in size v) ob))
  = sizes (qattrs_kids q).
Proof. destruct q as [wi ob off lim]. cbn [qattrs_kids]. now rewrite sizes_app, sizes_orders. Qed.
Lemma sizes_fopts x :
  (let 'mkFopts ob fi wi _ := x in
   list_sum (map (fun o => let 'mkOrder v _ _ := o in size v) ob) + size_opt fi + match wi with Some w => below_window w | None => 0 end)
  = sizes (fopts_kids x).
Proof.
  destruct x as [ob fi wi ig]. cbn [fopts_kids]. rewrite !sizes_app, sizes_orders, sizes_opt. destruct wi; unfold below_window; change (sizes []) with 0; lia.
Qed.
(** One level at a time. *)
Lemma size_step e : size e = 1 + sizes (kids e).
Proof.
  destruct e; cbn [size kids]; try reflexivity; f_equal.
  all: fold sizes size_opt.
  all: rewrite ?sizes_cons, ?sizes_app, ?sizes_opt; change (sizes []) with 0; try lia.
  all: rewrite ?sizes_orders, ?sizes_qattrs; try lia; try reflexivity.
  - destruct table; try reflexivity. cbn [tref_kids]. rewrite sizes_cons. change (sizes []) with 0. lia.
  - destruct table; try reflexivity. cbn [tref_kids]. rewrite sizes_cons. change (sizes []) with 0. lia.
  - unfold size_opt. lia.
  - fold (size_opt else_) (size_opt value). rewrite sizes_concat, map_map, <- Nat.add_assoc. f_equal. f_equal.
    apply map_ext. intros [x y]. cbn [fst snd]. rewrite !sizes_cons. change (sizes []) with 0. lia.
  - fold (sizes args). f_equal. rewrite <- sizes_fopts. destruct fo as [ob fi wi ig]. unfold size_opt.
    destruct wi as [w|]; [rewrite sizes_window|]; reflexivity.
  - fold (sizes select) (size_opt from_) (size_opt wh) (size_opt having).
    match goal with |- _ + _ + _ + ?G + _ + ?W + _ = _ =>
      assert (EG : G = sizes (match gb with None => [] | Some g => groupby_kids g end));
      [|assert (EW : W = sizes (concat (map (fun nw => window_kids (snd nw)) windows)))] end.
    { destruct gb as [[gs d]|]; [|reflexivity]. cbn [groupby_kids]. rewrite sizes_concat, map_map. f_equal. apply map_ext. intro g. apply sizes_group. }
    { rewrite sizes_concat, map_map. f_equal. apply map_ext. intros [n w]. apply sizes_window. }
    rewrite EG, EW. lia.
  - destruct crit as [[l|x]|]; cbn [jcrit_kids]; rewrite ?sizes_cons; change (sizes []) with 0; lia.
Qed.


(** * Lambdas *)
Lemma size_subst vs e : forall e', subst vs e = Ok e' -> size e' = size e.
Proof.
  induction e as [e IH] using kids_ind. intros e' E.
  assert (D : is_param vs e \/ ~ is_param vs e).
  { destruct e; try (right; intros (n & t' & X & _); discriminate X).
    destruct table; try (right; intros (n & t' & X & _); discriminate X).
    destruct (in_dec string_dec name vs) as [I|I]; [left; now exists name, t|right].
    intros (n & t' & X & Hn). injection X as -> ->. now apply I. }
  destruct D as [(n & t & -> & Hn)|N].
  - cbn [subst] in E. destruct (mem n vs); cbv iota in E; injection E as <-; reflexivity.
  - apply subst_step in E; [|exact N]. rewrite !size_step. f_equal.
    apply (t_parts trav_node) in E. revert E IH. generalize (kids e').
    induction (kids e) as [|k ks IHk]; intros l F IH; inversion F; subst; [reflexivity|]. rewrite !sizes_cons. f_equal.
    + apply IH; [now left|assumption].
    + apply IHk; [assumption|intros; apply IH; [now right|assumption]].
Qed.

(** * Parts of phrases *)
Lemma len_name n ts : name n ts -> 1 <= length ts.
Proof. intros []; cbn [length]; lia. Qed.
Lemma len_text v ts : text v ts -> 1 <= length ts.
Proof. intros []; cbn [length]; lia. Qed.
Lemma len_path l ts : path l ts -> 1 <= length ts.
Proof. induction 1; rewrite ?app_length; cbn [length]; match goal with H : name _ _ |- _ => apply len_name in H end; lia. Qed.
Lemma len_as_name n ts : as_name n ts -> 1 <= length ts.
Proof. intros []; cbn [length]; match goal with H : name _ _ |- _ => apply len_name in H end; lia. Qed.
Lemma len_paren ts : length (paren ts) = 2 + length ts.
Proof. unfold paren. cbn [length]. rewrite app_length. cbn [length]. lia. Qed.
Lemma size_table l t : table_of l t -> size t = 1.
Proof. now intros []. Qed.
Lemma size_interval e ts : interval e ts -> size e <= length ts.
Proof. intros [m tm v tv u f g tg S T U G _]. rewrite !app_length. cbn [size length]. lia. Qed.
Lemma size_negated neg e : size (negated neg e) = (if neg then 1 else 0) + size e.
Proof. destruct neg; reflexivity. Qed.
Lemma size_dressed q qa qa' : attrs_of q = Some qa -> size (dressed qa' q) + sizes (qattrs_kids qa) = size q + sizes (qattrs_kids qa').
Proof.
  intro E. destruct q; try discriminate E; injection E as <-; cbn [dressed]; rewrite !size_step; cbn [kids];
    rewrite ?sizes_app, ?sizes_cons, ?sizes_app; lia.
Qed.
Lemma size_arranged f l : sizes (arranged f l) = sizes l.
Proof.
  destruct f; try reflexivity. destruct l as [|x [|y [|z [|w l]]]]; try reflexivity.
  cbn [arranged]. rewrite !sizes_cons. lia.
Qed.
Lemma size_now f p : size (now f p) = 1.
Proof. destruct f; reflexivity. Qed.
Lemma size_starred b : sizes (tref_kids (starred b)) <= size b.
Proof. destruct b; cbn [starred tref_kids]; rewrite ?sizes_cons; change (sizes []) with 0; lia. Qed.
Lemma size_kept e : size_opt (kept e) <= size e.
Proof. destruct e; cbn [kept size_opt]; lia. Qed.
Definition in_windows (l : list (string * window node)) : nat := list_sum (map (fun x => below_window (snd x)) l).
Lemma in_windows_cons x l : in_windows (x :: l) = below_window (snd x) + in_windows l. Proof. reflexivity. Qed.
Lemma in_windows_set k w l : in_windows (dict_set k w l) <= below_window w + in_windows l.
Proof.
  induction l as [|[k' w'] l IH]; cbn [dict_set]; [reflexivity|]. destruct (String.eqb_spec k' k) as [->|N];
    rewrite !in_windows_cons; cbn [snd]; lia.
Qed.
Lemma in_windows_dict l : in_windows (dict_of l) <= in_windows l.
Proof.
  unfold dict_of. assert (G : forall m, in_windows (fold_left (fun m kv => dict_set (fst kv) (snd kv) m) l m) <= in_windows l + in_windows m).
  { induction l as [|[k w] l IH]; intro m; cbn [fold_left]; [lia|]. etransitivity; [apply IH|]. cbn [fst snd].
    rewrite in_windows_cons. pose proof (in_windows_set k w m). cbn [snd]. lia. }
  specialize (G []). change (in_windows []) with 0 in G. lia.
Qed.
Lemma windows_sizes ws : sizes (concat (map (fun nw : string * window node => window_kids (snd nw)) ws)) = in_windows ws.
Proof. rewrite sizes_concat, map_map. reflexivity. Qed.

(** * All phrases *)
Fixpoint held (f : form) : nat :=
  match f with
  | FMany l => list_sum (map held l)
  | FExpr _ e | FItem e | FRel _ e | FNamed e | FTerm _ e | FBody e | FQuery e => size e
  | FClause _ _ o | FElse o | FOperand o | FFilter o | FFrom o => size_opt o
  | FWhens l => list_sum (map (fun cv => size (fst cv) + size (snd cv)) l)
  | FSort o => size (o_value o)
  | FOrder l => sizes (map o_value l)
  | FBound b => sizes (bound_kids b)
  | FFrame _ s e => sizes (bound_kids s) + sizes (bound_kids e)
  | FPartition l | FArgs l | FSet l => sizes l
  | FWindow w => below_window w
  | FOver o => match o with Some w => below_window w | None => 0 end
  | FGroup g => sizes (group_kids g)
  | FGroupBy o => match o with Some g => sizes (groupby_kids g) | None => 0 end
  | FCriteria c => sizes (jcrit_kids c)
  | FWindef x => below_window (snd x)
  | FWindows l => in_windows l
  | FSkim _ => 0
  end.
Lemma held_exprs l : held (FExprs l) = sizes l.
Proof. unfold FExprs. cbn [held]. now rewrite map_map. Qed.
Lemma held_items l : held (FMany (map FItem l)) = sizes l.
Proof. cbn [held]. now rewrite map_map. Qed.
Lemma held_named l : held (FMany (map FNamed l)) = sizes l.
Proof. cbn [held]. now rewrite map_map. Qed.
Lemma held_sorts l : held (FMany (map FSort l)) = sizes (map o_value l).
Proof. cbn [held]. unfold sizes. now rewrite !map_map. Qed.
Lemma held_groups l : held (FMany (map FGroup l)) = sizes (concat (map group_kids l)).
Proof. cbn [held]. rewrite sizes_concat. now rewrite !map_map. Qed.
Lemma held_sets l : held (FMany (map FSet l)) = sizes (concat l).
Proof. cbn [held]. rewrite sizes_concat. now rewrite !map_map. Qed.
Lemma held_windefs l : held (FMany (map FWindef l)) = in_windows l.
Proof. cbn [held]. now rewrite !map_map. Qed.

Ltac known := repeat match goal with
  | H : name _ _ |- _ => apply len_name in H
  | H : text _ _ |- _ => apply len_text in H
  | H : as_name _ _ |- _ => apply len_as_name in H
  | H : path _ _ |- _ => apply len_path in H
  | H : table_of _ _ |- _ => apply size_table in H
  | H : interval _ _ |- _ => apply size_interval in H
  end.
Ltac count := repeat (rewrite ?app_length, ?len_paren; cbn [length]).
Ltac parts := rewrite ?held_exprs, ?held_items, ?held_named, ?held_sorts, ?held_groups, ?held_sets, ?held_windefs in *;
  cbn [held size_opt kids tref_kids opt_kids bound_kids group_kids groupby_kids jcrit_kids fst snd o_value] in *;
  rewrite ?sizes_app, ?sizes_cons, ?sizes_opt in *; change (sizes []) with 0 in *.

Lemma means_size en f ts : means en f ts -> held f <= length ts.
Proof.
  induction 1; known.
  all: try solve [cbn [held]; count; lia].
  all: try solve [parts; count; lia].
  all: try solve [parts; rewrite ?size_negated; rewrite size_step; parts; count; lia].
  all: try solve [cbn; lia].
  all: try solve [parts; rewrite ?size_now; count; lia].
  all: try match goal with N : negation _ _ |- _ => destruct N end.
  all: try solve [parts; cbn [negated]; rewrite ?(size_step (NUn UNot _)); cbn [kids]; rewrite ?sizes_cons; rewrite size_step; parts; count; lia].
  all: try solve [parts; unfold negated; rewrite size_step; parts; rewrite size_step; parts; count; lia].
  all: try solve [parts; pose proof (size_kept e); count; lia].
  - cbn [held map] in *. match goal with |- list_sum (?x :: ?y) <= ?w => change (x + list_sum y <= w) end. count. lia.
  - (* || *) cbn [held] in *. rewrite size_step. cbn [kids fopts_kids no_fopts map opt_kids app].
    rewrite !sizes_cons. change (sizes []) with 0. count. lia.
  - (* lambda *) cbn [held] in *. rewrite size_step. cbn [kids]. rewrite sizes_cons. rewrite (size_subst [n] b) by assumption. change (sizes []) with 0. count. lia.
  - cbn [held] in *. rewrite size_step. cbn [kids]. rewrite sizes_cons. rewrite (size_subst l b) by assumption. change (sizes []) with 0. count. lia.
  - (* CASE *) cbn [held] in *. rewrite size_step. cbn [kids]. rewrite !sizes_app, !sizes_opt, sizes_concat, map_map. count.
    replace (list_sum (map (fun cv => sizes [fst cv; snd cv]) l)) with (list_sum (map (fun cv => size (fst cv) + size (snd cv)) l)); [lia|].
    f_equal. apply map_ext. intros [u v']. rewrite !sizes_cons. change (sizes []) with 0. lia.
  - cbn [held map fst snd] in *. match goal with |- list_sum [?u] <= ?w => change (u + 0 <= w) end. count. lia.
  - cbn [held map fst snd] in *. match goal with |- list_sum (?u :: ?v) <= ?w => change (u + list_sum v <= w) end. count. lia.
  - (* call *) cbn [held] in *. rewrite size_step. cbn [kids fopts_kids].
    rewrite !sizes_app, sizes_opt, size_arranged. unfold below_window in *. count. destruct w; change (sizes []) with 0; lia.
  - cbn [held] in *. rewrite size_step. cbn [kids fopts_kids].
    rewrite !sizes_app, sizes_opt, sizes_cons, (size_step (NStar r unknown)). unfold below_window in *. count. cbn [map kids].
    assert (R : 1 + sizes (tref_kids r) <= length ts).
    { destruct H1 as [[-> ->]|(n' & tn' & H1 & -> & ->)]; [cbn; lia|]. apply len_name in H1. cbn [tref_kids]. count. change (sizes []) with 0. lia. }
    change (sizes []) with 0. destruct w; change (sizes []) with 0; lia.
  - (* window *) cbn [held] in *. unfold below_window. cbn [window_kids]. rewrite !sizes_app. count. lia.
  - cbn [held] in *. rewrite size_step. cbn [kids]. pose proof (size_starred b). count. lia.
  - cbn [held] in *. rewrite size_step. cbn [kids]. rewrite sizes_cons, (size_step (NStar _ _)). cbn [kids]. pose proof (size_starred b).
    change (sizes []) with 0. count. lia.
  - cbn [held size_opt] in *. pose proof (size_kept r). count. lia.
  - rewrite held_windefs in *. cbn [held]. pose proof (in_windows_dict l). count. lia.
  - (* SELECT *) rewrite held_items in *. cbn [held] in *. rewrite size_step. cbn [kids no_qattrs qattrs_kids map app].
    rewrite !sizes_app, !sizes_opt. change (sizes []) with 0.
    pose proof (windows_sizes ws). count. destruct gb; change (sizes []) with 0; lia.
  - rewrite held_exprs in *. cbn [held]. rewrite size_step. cbn [kids no_qattrs qattrs_kids map app].
    rewrite sizes_app. change (sizes []) with 0. count. lia.
  - cbn [held] in *. rewrite size_step. cbn [kids no_qattrs qattrs_kids map app].
    rewrite !sizes_cons. change (sizes []) with 0. count. lia.
  - (* ORDER BY, OFFSET, LIMIT *) cbn [held] in *. count. destruct (attrs_of q) as [qa|] eqn:A.
    + pose proof (size_dressed q qa (mkQ [] ob off (given None lim)) A) as D. cbn [qattrs_kids app] in D. lia.
    + replace (dressed _ q) with q by (destruct q; try discriminate A; reflexivity). lia.
  - (* WITH *) rewrite held_named in *. cbn [held] in *. count. match goal with A : attrs_of q = Some ?qa |- context [dressed ?x _] => pose proof (size_dressed q qa x A) as D; destruct qa as [wi0 ob0 of0 lm0] end.
    cbn [q_orderby q_offset q_limit qattrs_kids] in *. rewrite !sizes_app in D. lia.
Qed.
