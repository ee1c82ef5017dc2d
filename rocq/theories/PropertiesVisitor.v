(** Properties of visitors that do not descend everywhere (C71). *)
From Coq Require Import String List ZArith Bool Lia Permutation.
From Verif Require Import PyStr Types Inference Functions Ast Walk Tokens NodeFacts PropertiesScope Visit PropertiesVisit Visitor.
Import ListNotations.
Open Scope nat_scope.
Open Scope string_scope.
Open Scope list_scope.

(** * Specification *)
(** The nodes the [visit] method hands on, directly or through objects at which the visitor
    descends. *)
Definition handed (p : string -> bool) (e : node) : list node :=
  match e with
  | NCase bs el x =>
      (if p "When" then concat (map (fun cv => [fst cv; snd cv]) bs) else [])
      ++ (if p "Else" then opt_kids el else []) ++ opt_kids x
  | NJoin l r _ _ (Some (JOn x)) => l :: r :: (if (p "JoinConfig" && p "JoinOnCriteria")%bool then [x] else [])
  | _ => visited e
  end.
(** Objects that have no method of the visitor, and objects whose [visit] method fails. *)
Definition foreign (e : node) : bool := match e with NNone | NVar _ => true | _ => false end.
Definition fails (p : string -> bool) (e : node) : bool :=
  match e with NJoin _ _ _ _ None => p "JoinConfig" | _ => stuck e end.
(** The nodes that are seen, each before those it hands on. *)
Inductive sees (v : visitor) : node -> list node -> Prop :=
| sees_stop e : foreign e = false -> at_node v e = false -> sees v e [e]
| sees_on e ls : foreign e = false -> at_node v e = true -> fails (at_part v) e = false ->
    Forall2 (sees v) (handed (at_part v) e) ls -> sees v e (e :: concat ls).

(** * One step *)
Definition over (v : visitor) (ks : list node) (w : result (list seen)) : Prop :=
  match w with
  | Ok l => exists ls, each (walk_by v) ks = Ok ls /\ nodes_of l = concat (map nodes_of ls)
  | Err x => x = AttributeError /\ exists k y, In k ks /\ walk_by v k = Err y
  end.
Definition fails_well (v : visitor) (k : node) : Prop := forall x, walk_by v k = Err x -> x = AttributeError.
Lemma over_one v k : fails_well v k -> over v [k] (walk_by v k).
Proof.
  intro F. unfold over. destruct (walk_by v k) as [l|x] eqn:E.
  - exists [l]. cbn [each map concat]. rewrite E. cbn [bind]. rewrite app_nil_r. now split.
  - split; [now apply F|]. exists k, x. split; [now left|exact E].
Qed.
Lemma over_nil v : over v [] (Ok []).
Proof. now exists []. Qed.
Lemma over_part v c ks w : over v ks w -> over v (if at_part v c then ks else []) (part v c w).
Proof. unfold part. destruct (at_part v c); [|now exists []]. destruct w as [l|x]; cbn [over noted bind]; intro H; exact H. Qed.
Lemma over_then v ks ms a b : over v ks a -> over v ms b -> over v (ks ++ ms) (walk_then a b).
Proof.
  unfold walk_then. destruct a as [la|x]; cbn [over bind].
  - intros (l1 & E1 & N1). destruct b as [lb|x]; cbn [over bind].
    + intros (l2 & E2 & N2). exists (l1 ++ l2). split; [now apply each_app|].
      now rewrite nodes_app, map_app, concat_app, N1, N2.
    + intros (X & k & y & I & W). split; [exact X|]. exists k, y. split; [apply in_or_app; now right|exact W].
  - intros (X & k & y & I & W) _. split; [exact X|]. exists k, y. split; [apply in_or_app; now left|exact W].
Qed.
Lemma over_list {A} v (K : A -> list node) f (l : list A) :
  (forall a, In a l -> over v (K a) (f a)) -> over v (concat (map K l)) (walk_list f l).
Proof.
  induction l as [|a l IH]; intro H; [apply over_nil|].
  cbn [map concat]. unfold walk_list. cbn [each].
  pose proof (over_then _ _ _ _ _ (H a (or_introl eq_refl)) (IH (fun b Hb => H b (or_intror Hb)))) as O.
  unfold walk_list, walk_then in O. destruct (f a) as [x|]; cbn [bind] in *; [|exact O].
  destruct (each f l); cbn [bind] in *; exact O.
Qed.
Lemma over_nodes v l : (forall k, In k l -> fails_well v k) -> over v l (walk_list (walk_by v) l).
Proof.
  intro H. rewrite <- (map_id l) at 1. replace (map (fun x => x) l) with (concat (map (fun x => [x]) l)).
  - apply over_list. intros a Ha. apply over_one. now apply H.
  - clear H. induction l as [|a l IH]; [reflexivity|]. cbn [map concat app]. now rewrite IH.
Qed.
Lemma over_opt v o : (forall k, o = Some k -> fails_well v k) -> over v (opt_kids o) (walk_opt (walk_by v) o).
Proof. destruct o as [k|]; intro H; [|apply over_nil]. apply over_one. now apply H. Qed.
Lemma over_case v (bs : list (node * node)) : (forall k, In k (concat (map (fun cv => [fst cv; snd cv]) bs)) -> fails_well v k) ->
  over v (if at_part v "When" then concat (map (fun cv => [fst cv; snd cv]) bs) else []) (walk_list (part_branch v (walk_by v)) bs).
Proof.
  intro H.
  replace (if at_part v "When" then concat (map (fun cv => [fst cv; snd cv]) bs) else [])
    with (concat (map (fun cv : node * node => if at_part v "When" then [fst cv; snd cv] else []) bs)).
  2: { destruct (at_part v "When"); [reflexivity|]. clear H. now induction bs. }
  apply over_list. intros [c x] I. cbn [fst snd part_branch].
  assert (G : forall k, In k [c; x] -> fails_well v k).
  { intros k Hk. apply H. apply in_concat. exists [c; x]. split; [|exact Hk]. apply in_map_iff. now exists (c, x). }
  apply over_part. change [c; x] with ([c] ++ [x]).
  apply over_then; apply over_one, G; [now left|right; now left].
Qed.
Lemma over_args v (g : fn) args : (forall k, In k args -> fails_well v k) ->
  over v (if is_stats g then rev args else args) (let* ls := each (walk_by v) args in Ok (concat (if is_stats g then rev ls else ls))).
Proof.
  intro H. destruct (each (walk_by v) args) as [ls|x] eqn:E; cbn [bind over].
  - exists (if is_stats g then rev ls else ls). split; [|apply nodes_concat].
    destruct (is_stats g); [now apply each_rev|exact E].
  - destruct (each_err _ _ _ E) as (a & I & W). split; [exact (H a I x W)|]. exists a, x. split; [|exact W].
    destruct (is_stats g); [now apply -> in_rev|exact I].
Qed.

Definition outcome (v : visitor) (e : node) : Prop :=
  (fails (at_part v) e = true /\ walk_by v e = Err AttributeError)
  \/ (fails (at_part v) e = false /\ exists w, over v (handed (at_part v) e) w /\ walk_by v e = (let* l := w in Ok (SeenNode e :: l))).
Ltac goes := right; split; [reflexivity|]; eexists; split; [|reflexivity].
Lemma step v e : foreign e = false -> at_node v e = true -> (forall k, In k (kids e) -> fails_well v k) -> outcome v e.
Proof.
  unfold outcome.
  destruct e as [|l t|n tr t|x a|tr t|x a|n|vs b|op x|op l r|a b c|vs|x q|x vs|a b c|x y|vs|x y z|tr x t|a b|bs el x
                |g args fo|g p|x sp ov ob|x nf|sel fr wh gb hv d ws qa|op l r d qa|tb qa|es qa|n s c|r a cols|l r jt nat c|vs od|q|r st p];
    intros F D H; try discriminate F; cbn [walk_by]; rewrite D; cbn [negb];
    try (left; now split); try (goes; apply over_nil);
    try (goes; apply over_one, H; now left); try (goes; now apply over_nodes).
  - goes. destruct tr as [|s|v']; [apply over_nil..|]. cbn [handed visited walk_tref kids tref_kids] in *.
    destruct (is_value v'); [apply over_one, H; now left|apply over_nil].
  - goes. destruct tr as [|s|v']; [apply over_nil..|]. cbn [handed visited walk_tref kids tref_kids] in *.
    destruct (is_value v'); [apply over_one, H; now left|apply over_nil].
  - destruct vs; [|left; now split]. goes. apply over_one, H. now left.
  - goes. change (handed (at_part v) (NBin op l r)) with ([l] ++ [r]). apply over_then; apply over_one, H; [now left|right; now left].
  - goes. change (handed (at_part v) (NBetween a b c)) with ([a] ++ [b] ++ [c]).
    apply over_then; [|apply over_then]; apply over_one, H; [now left|right; now left|right; right; now left].
  - goes. change (handed (at_part v) (NInQuery x q)) with ([x] ++ [q]). apply over_then; apply over_one, H; [now left|right; now left].
  - goes. change (handed (at_part v) (NInList x vs)) with ([x] ++ vs). apply over_then; [apply over_one, H; now left|].
    apply over_nodes. intros k Hk. apply H. now right.
  - goes. change (handed (at_part v) (NLike a b c)) with ([a] ++ [b] ++ opt_kids c).
    apply over_then; [|apply over_then]; [apply over_one, H; now left|apply over_one, H; right; now left|].
    apply over_opt. intros k ->. apply H. right. right. now left.
  - goes. change (handed (at_part v) (NSubscript a b)) with ([a] ++ [b]). apply over_then; apply over_one, H; [now left|right; now left].
  - goes. cbn [handed kids] in *. apply over_then; [|apply over_then].
    + apply over_case. intros k Hk. apply H. apply in_or_app. now left.
    + destruct el as [y|]; [|destruct (at_part v "Else"); apply over_nil]. apply over_part, over_one, H. apply in_or_app. right. now left.
    + apply over_opt. intros k ->. apply H. apply in_or_app. right. apply in_or_app. right. now left.
  - destruct (stuck (NFunc g args fo)) eqn:S.
    + left. split; [exact S|]. destruct g; try discriminate S. reflexivity.
    + right. split; [exact S|]. exists (let* ls := each (walk_by v) args in Ok (concat (if is_stats g then rev ls else ls))).
      split; [|destruct g; try reflexivity; discriminate S].
      apply (over_args v g). intros k Hk. apply H. cbn [kids]. apply in_or_app. now left.
  - destruct ov as [o|].
    + goes. replace (handed (at_part v) (NListAgg x sp (Some o) ob)) with ([x] ++ (if at_part v "OverflowFiller" then @nil node else []))
        by (destruct (at_part v "OverflowFiller"); reflexivity).
      apply over_then; [apply over_one, H; now left|]. apply over_part, over_nil.
    + goes. apply over_one, H. now left.
  - goes. change (handed (at_part v) (NSetQuery op l r d qa)) with ([l] ++ [r]). apply over_then; apply over_one, H; [now left|right; now left].
  - goes. apply over_nodes. intros k Hk. apply H. cbn [kids]. apply in_or_app. now left.
  - destruct c as [[us|x]|].
    + goes. change (handed (at_part v) (NJoin l r jt nat (Some (JUsing us)))) with ([l] ++ [r] ++ []).
      apply over_then; [|apply over_then]; [apply over_one, H; now left|apply over_one, H; right; now left|].
      pose proof (over_part v "JoinConfig" _ _ (over_part v "JoinUsingCriteria" _ _ (over_nil v))) as O.
      cbn [part_criterion]. now destruct (at_part v "JoinConfig"), (at_part v "JoinUsingCriteria").
    + goes. cbn [handed]. change (l :: r :: ?t) with ([l] ++ [r] ++ t).
      apply over_then; [|apply over_then]; [apply over_one, H; now left|apply over_one, H; right; now left|].
      pose proof (over_part v "JoinConfig" _ _ (over_part v "JoinOnCriteria" _ _ (over_one v x (H x (or_intror (or_intror (or_introl eq_refl))))))) as O.
      cbn [part_criterion]. now destruct (at_part v "JoinConfig"), (at_part v "JoinOnCriteria").
    + assert (O : over v ([l] ++ [r]) (walk_then (walk_by v l) (walk_by v r)))
        by (apply over_then; apply over_one, H; [now left|right; now left]).
      cbn [fails]. unfold part_criterion, part. destruct (at_part v "JoinConfig") eqn:J.
      * left. split; [reflexivity|]. unfold walk_then in *. cbn [noted bind].
        destruct (walk_by v l) as [y|y] eqn:El; cbn [bind]; [|f_equal; apply (H l); [now left|exact El]].
        destruct (walk_by v r) as [z|z] eqn:Er; cbn [bind]; [reflexivity|f_equal; apply (H r); [right; now left|exact Er]].
      * goes. change (handed (at_part v) (NJoin l r jt nat None)) with ([l] ++ [r] ++ []).
        apply over_then; [apply over_one, H; now left|]. apply over_then; [apply over_one, H; right; now left|]. now exists [].
  - goes. change (handed (at_part v) (NSample r st p)) with ([r] ++ [p]). apply over_then; apply over_one, H; [now left|right; now left].
Qed.
Lemma handed_in p e k : In k (handed p e) -> In k (kids e).
Proof.
  destruct e as [|l t|n tr t|x a|tr t|x a|n|vs b|op x|op l r|a b c|vs|x q|x vs|a b c|x y|vs|x y z|tr x t|a b|bs el x
                |g args fo|g ps|x sp ov ob|x nf|sel fr wh gb hv d ws qa|op l r d qa|tb qa|es qa|n s c|r a cols|l r jt nat c|vs od|q|r st ps];
    try apply visited_in; cbn [handed kids]; intro I.
  - apply in_app_or in I as [I|I]; [apply in_or_app; left; destruct (p "When"); [exact I|destruct I]|].
    apply in_or_app. right. apply in_app_or in I as [I|I]; apply in_or_app; [left|now right].
    destruct (p "Else"); [exact I|destruct I].
  - destruct c as [[us|x]|]; [exact I| |exact I]. destruct I as [I|[I|I]]; [now left|right; now left|right; right].
    destruct (p "JoinConfig" && p "JoinOnCriteria")%bool; [exact I|destruct I].
Qed.
Lemma foreign_raises v e : foreign e = true -> walk_by v e = Err AttributeError.
Proof. destruct e; try discriminate; intros _; cbn [walk_by has_method]; now destruct (at_node v _). Qed.
Lemma stops v e : foreign e = false -> at_node v e = false -> walk_by v e = Ok [SeenNode e].
Proof. destruct e; try discriminate; intros _ D; cbn [walk_by has_method]; rewrite D; reflexivity. Qed.
Lemma all_fail_well v e : fails_well v e.
Proof.
  induction e as [e IH] using kids_ind. intros x X.
  destruct (foreign e) eqn:F; [rewrite (foreign_raises v e F) in X; congruence|].
  destruct (at_node v e) eqn:D; [|rewrite (stops v e F D) in X; discriminate X].
  destruct (step v e F D IH) as [[_ W]|(_ & w & O & W)]; [congruence|].
  rewrite W in X. destruct w as [l|y]; cbn [bind] in X; [discriminate X|]. destruct O as (-> & _). congruence.
Qed.

(** * Theorems *)
Theorem C71_only_attribute_error : forall v e x, walk_by v e = Err x -> x = AttributeError.
Proof. exact all_fail_well. Qed.
Print Assumptions C71_only_attribute_error.
(** When a traversal succeeds, and what it sees. *)
Theorem C71_iff : forall v e ns, (exists l, walk_by v e = Ok l /\ nodes_of l = ns) <-> sees v e ns.
Proof.
  intros v e. induction e as [e IH] using kids_ind. intro ns.
  destruct (foreign e) eqn:F.
  { rewrite (foreign_raises v e F). split; [intros (l & L & _); discriminate L|]. inversion 1; congruence. }
  destruct (at_node v e) eqn:D.
  2: { rewrite (stops v e F D). split.
       - intros (l & L & <-). injection L as <-. now constructor.
       - inversion 1; subst; [|congruence]. now eexists. }
  destruct (step v e F D (fun k _ => all_fail_well v k)) as [[S W]|(S & w & O & W)]; rewrite W.
  { split; [intros (l & L & _); discriminate L|]. inversion 1; congruence. }
  assert (T : forall ks ls, (forall k, In k ks -> In k (kids e)) -> each (walk_by v) ks = Ok ls -> Forall2 (sees v) ks (map nodes_of ls)).
  { intros ks ls I E. apply each_forall in E. induction E as [|k x ks xs H E IHE]; cbn [map]; constructor.
    - apply IH; [apply I; now left|eauto].
    - apply IHE. intros; apply I; now right. }
  pose proof (handed_in (at_part v) e) as I.
  destruct w as [l|x]; cbn [bind over] in *.
  - destruct O as (ls & E & N). pose proof (T _ _ I E) as G. split.
    + intros (l' & L & <-). injection L as <-. cbn [nodes_of]. rewrite N. now apply sees_on.
    + inversion 1 as [|? ms _ _ _ M]; subst; [congruence|]. eexists. split; [reflexivity|]. cbn [nodes_of]. rewrite N. f_equal. f_equal.
      clear -G M IH I. revert ms M. revert G. generalize (map nodes_of ls) as ns. induction (handed (at_part v) e) as [|k ks IHk]; intros ns G ms M.
      * inversion G; subst. now inversion M.
      * inversion G as [|? a ? b A B]; subst. inversion M as [|? c ? d C D]; subst. f_equal; [|apply IHk; auto; intros; apply I; now right].
        apply IH in A, C; try (apply I; now left). destruct A as (x & X & <-), C as (y & Y & <-). congruence.
  - destruct O as (_ & k & y & Ik & K). split; [intros (l & L & _); discriminate L|].
    inversion 1 as [|? ms _ _ _ M]; subst; [congruence|]. exfalso.
    assert (exists m, sees v k m) as [m G].
    { clear -M Ik. induction M as [|a b ks ms A M IHM]; [destruct Ik|]. destruct Ik as [->|Ik]; [eauto|auto]. }
    apply IH in G; [|now apply I]. destruct G as (l & L & _). congruence.
Qed.
Print Assumptions C71_iff.
(** [TreenoVisitor] itself does nothing, and raises only for what has no method. *)
Theorem C71_base : forall e, walk_by base_visitor e = if foreign e then Err AttributeError else Ok [SeenNode e].
Proof. intro e. destruct (foreign e) eqn:F; [now apply foreign_raises|now apply stops]. Qed.
Print Assumptions C71_base.

(** A visitor that descends less raises no more and sees a part of it, in the same order. *)
Inductive subseq {A} : list A -> list A -> Prop :=
| sub_nil l : subseq [] l
| sub_same x a b : subseq a b -> subseq (x :: a) (x :: b)
| sub_skip x a b : subseq a b -> subseq a (x :: b).
Lemma subseq_refl {A} (l : list A) : subseq l l.
Proof. induction l; constructor; assumption. Qed.
Lemma subseq_app {A} (a b c d : list A) : subseq a b -> subseq c d -> subseq (a ++ c) (b ++ d).
Proof.
  intros P Q. induction P as [l|x a b P IH|x a b P IH]; cbn [app]; [|now constructor|now constructor].
  induction l as [|x l IH]; [exact Q|]. cbn [app] in *. now constructor.
Qed.
Lemma handed_less p q e : (forall c, q c = true -> p c = true) -> subseq (handed q e) (handed p e).
Proof.
  intro L. destruct e; try apply subseq_refl; cbn [handed].
  - apply subseq_app; [|apply subseq_app; [|apply subseq_refl]].
    + destruct (q "When") eqn:Q; [rewrite (L _ Q); apply subseq_refl|constructor].
    + destruct (q "Else") eqn:Q; [rewrite (L _ Q); apply subseq_refl|constructor].
  - match goal with |- context [NJoin _ _ _ _ ?c] => destruct c as [[us|x]|] end; try apply subseq_refl.
    constructor. constructor. destruct (q "JoinConfig" && q "JoinOnCriteria")%bool eqn:Q; [|constructor].
    apply andb_true_iff in Q as [Q R]. rewrite (L _ Q), (L _ R). apply subseq_refl.
Qed.
Lemma fails_less p q e : (forall c, q c = true -> p c = true) -> fails p e = false -> fails q e = false.
Proof.
  intro L. destruct e; auto. cbn [fails]. match goal with |- context [match ?c with _ => _ end] => destruct c; auto end.
  destruct (q "JoinConfig") eqn:Q; [rewrite (L _ Q); auto|auto].
Qed.
Theorem C71_less : forall v v' e l,
  (forall x, at_node v' x = true -> at_node v x = true) -> (forall c, at_part v' c = true -> at_part v c = true) ->
  walk_by v e = Ok l -> exists l', walk_by v' e = Ok l' /\ subseq (nodes_of l') (nodes_of l).
Proof.
  intros v v' e l A B W.
  enough (G : forall ns, sees v e ns -> exists ms, sees v' e ms /\ subseq ms ns).
  { destruct (G (nodes_of l)) as (ms & M & Q); [apply C71_iff; eauto|]. apply C71_iff in M as (l' & L' & <-). eauto. }
  clear l W. induction e as [e IH] using kids_ind. intros ns S.
  inversion S as [? F D|? ls F D X M]; subst.
  - exists [e]. split; [|apply subseq_refl]. apply sees_stop; [exact F|]. destruct (at_node v' e) eqn:E; [|reflexivity]. apply A in E. congruence.
  - destruct (at_node v' e) eqn:E.
    2: { exists [e]. split; [now apply sees_stop|]. constructor. constructor. }
    assert (G : exists ms, Forall2 (sees v') (handed (at_part v') e) ms /\ subseq (concat ms) (concat ls)).
    { pose proof (handed_less (at_part v) (at_part v') e B) as Q.
      assert (I : forall k, In k (handed (at_part v) e) -> In k (kids e)) by apply handed_in.
      clear S X E. revert ls M. induction Q as [ks|k a b Q IHQ|k a b Q IHQ]; intros ls M.
      - exists []. split; constructor.
      - inversion M as [|? x ? xs P R]; subst. destruct (IH k (I k (or_introl eq_refl)) x P) as (y & Y & SY).
        destruct (IHQ (fun j Hj => I j (or_intror Hj)) xs R) as (ys & Ys & SYs). exists (y :: ys). split; [now constructor|].
        cbn [concat]. now apply subseq_app.
      - inversion M as [|? x ? xs P R]; subst. destruct (IHQ (fun j Hj => I j (or_intror Hj)) xs R) as (ys & Ys & SYs).
        exists ys. split; [exact Ys|]. cbn [concat]. change (concat ys) with ([] ++ concat ys). apply subseq_app; [constructor|exact SYs]. }
    destruct G as (ms & Ms & Q). exists (e :: concat ms). split; [|now constructor].
    apply sees_on; auto. eapply fails_less; eassumption.
Qed.
Print Assumptions C71_less.

(** Where nothing outside the objects it stops at is missed, and the order is that of the
    text. *)
Inductive outside (d : node -> bool) : node -> list node -> Prop :=
| out_stop e : d e = false -> outside d e [e]
| out_on e ls : d e = true -> Forall2 (outside d) (kids e) ls -> outside d e (e :: concat ls).
Inductive clear_to (d : node -> bool) : node -> Prop :=
| clear_stop e : foreign e = false -> d e = false -> clear_to d e
| clear_on e : d e = true -> plain_here e -> (forall k, In k (kids e) -> clear_to d k) -> clear_to d e.
Lemma handed_all e : handed (fun _ => true) e = visited e.
Proof. destruct e; try reflexivity. cbn [handed]. match goal with |- context [NJoin _ _ _ _ ?c] => destruct c as [[us|x]|] end; reflexivity. Qed.
Lemma fails_all e : fails (fun _ => true) e = stuck e.
Proof. destruct e; try reflexivity. cbn [fails stuck]. match goal with |- context [match ?c with _ => _ end] => destruct c; reflexivity end. Qed.
Theorem C71_all_outside : forall d e, clear_to d e ->
  exists l, walk_by (mkVisitor d (fun _ => true)) e = Ok l /\ outside d e (nodes_of l).
Proof.
  intros d e C. enough (G : exists ns, sees (mkVisitor d (fun _ => true)) e ns /\ outside d e ns).
  { destruct G as (ns & S & O). apply C71_iff in S as (l & L & <-). eauto. }
  revert C. induction e as [e IH] using kids_ind. intro C. inversion C as [? F D|? D P K]; subst.
  - exists [e]. split; now constructor.
  - destruct (plain_visited e P) as [S V].
    assert (exists ls, Forall2 (sees (mkVisitor d (fun _ => true))) (kids e) ls /\ Forall2 (outside d) (kids e) ls) as (ls & A & B).
    { clear -IH K. induction (kids e) as [|k ks IHk]; [exists []; split; constructor|].
      destruct (IH k (or_introl eq_refl) (K k (or_introl eq_refl))) as (n & X & Y).
      destruct IHk as (ns & Xs & Ys); [intros; apply IH; auto; now right|intros; apply K; now right|].
      exists (n :: ns). split; now constructor. }
    exists (e :: concat ls). split; [|now constructor]. apply sees_on; cbn [at_node at_part]; auto.
    + destruct e; try reflexivity; destruct P.
    + now rewrite fails_all.
    + now rewrite handed_all, V.
Qed.
Print Assumptions C71_all_outside.

(** A visitor that descends everywhere is the one of C54. *)
Local Definition everywhere := mkVisitor (fun _ => true) (fun _ => true).
Lemma each_same {A B} (f g : A -> result B) l : (forall a, In a l -> f a = g a) -> each f l = each g l.
Proof.
  induction l as [|a l IH]; intro H; [reflexivity|]. cbn [each]. rewrite (H a (or_introl eq_refl)).
  now rewrite (IH (fun b Hb => H b (or_intror Hb))).
Qed.
Lemma list_same {A} (f g : A -> result (list seen)) l : (forall a, In a l -> f a = g a) -> walk_list f l = walk_list g l.
Proof. intro H. unfold walk_list. now rewrite (each_same f g l H). Qed.
Theorem C71_everywhere : forall e, walk_by (mkVisitor (fun _ => true) (fun _ => true)) e = walk e.
Proof.
  change (forall e, walk_by everywhere e = walk e). induction e as [e IH] using kids_ind.
  assert (P : forall c r, part everywhere c r = noted c r) by reflexivity.
  destruct e as [|l t|n tr t|x a|tr t|x a|n|vs b|op x|op l r|a b c|vs|x q|x vs|a b c|x y|vs|x y z|tr x t|a b|bs el x
                |g args fo|g ps|x sp ov ob|x nf|sel fr wh gb hv d ws qa|op l r d qa|tb qa|es qa|n s c|r a cols|l r jt nat c|vs od|q|r st ps];
    cbn [walk walk_by everywhere at_node negb]; fold everywhere; cbn [kids] in IH; try reflexivity;
    try (rewrite (IH x) by (now left); reflexivity);
    try (rewrite (IH l), (IH r) by (cbn [In]; auto); reflexivity);
    try (rewrite (IH a), (IH b) by (cbn [In]; auto); reflexivity);
    try (rewrite (list_same (walk_by everywhere) walk vs) by exact IH; reflexivity).
  - destruct tr as [|s|v]; [reflexivity..|]. cbn [walk_tref]. now rewrite (IH v (or_introl eq_refl)).
  - destruct tr as [|s|v]; [reflexivity..|]. cbn [walk_tref]. now rewrite (IH v (or_introl eq_refl)).
  - destruct vs; [|reflexivity]. now rewrite (IH b (or_introl eq_refl)).
  - rewrite (IH a), (IH b), (IH c) by (cbn [In]; auto). reflexivity.
  - rewrite (IH x), (IH q) by (cbn [In]; auto). reflexivity.
  - rewrite (IH x) by (now left). rewrite (list_same (walk_by everywhere) walk vs) by (intros; apply IH; now right). reflexivity.
  - rewrite (IH a), (IH b) by (cbn [In]; auto). destruct c as [c|]; [|reflexivity]. cbn [walk_opt]. rewrite (IH c) by (cbn [In opt_kids]; auto). reflexivity.
  - rewrite (list_same (part_branch everywhere (walk_by everywhere)) (walk_branch walk) bs).
    2: { intros [c v] I. cbn [part_branch walk_branch]. rewrite P.
         assert (Q : forall k, In k [c; v] -> walk_by everywhere k = walk k).
         { intros k Hk. apply IH. apply in_or_app. left. apply in_concat. exists [c; v]. split; [|exact Hk]. apply in_map_iff. now exists (c, v). }
         rewrite (Q c), (Q v) by (cbn [In]; auto). reflexivity. }
    assert (E : walk_opt (fun y => part everywhere "Else" (walk_by everywhere y)) el = walk_opt (fun y => noted "Else" (walk y)) el).
    { destruct el as [y|]; [|reflexivity]. cbn [walk_opt]. rewrite P, (IH y); [reflexivity|]. apply in_or_app. right. now left. }
    assert (X : walk_opt (walk_by everywhere) x = walk_opt walk x).
    { destruct x as [y|]; [|reflexivity]. cbn [walk_opt]. apply IH. apply in_or_app. right. apply in_or_app. right. now left. }
    rewrite E, X. reflexivity.
  - rewrite (each_same (walk_by everywhere) walk args) by (intros; apply IH, in_or_app; now left). reflexivity.
  - rewrite (IH tb) by (now left). reflexivity.
  - rewrite (list_same (walk_by everywhere) walk es) by (intros; apply IH, in_or_app; now left). reflexivity.
  - rewrite (IH r) by (now left). reflexivity.
  - rewrite (IH l), (IH r) by (cbn [In]; auto). unfold part_criterion, walk_criterion. rewrite P.
    destruct c as [[us|x]|]; [reflexivity| |reflexivity]. rewrite (IH x); [reflexivity|]. right. right. now left.
  - rewrite (IH q) by (now left). reflexivity.
  - rewrite (IH r), (IH ps) by (cbn [In]; auto). reflexivity.
Qed.
Print Assumptions C71_everywhere.

(** The objects that are no nodes of the model: each is seen once for the object it belongs to,
    also if the visitor does not descend there. *)
Fixpoint parts_of (l : list seen) : list string :=
  match l with [] => [] | SeenNode _ :: r => parts_of r | SeenPart c :: r => c :: parts_of r end.
Definition own_parts (p : string -> bool) (e : node) : list string :=
  match e with
  | NCase bs el _ => map (fun _ => "When") bs ++ match el with Some _ => ["Else"] | None => [] end
  | NListAgg _ _ (Some _) _ => ["OverflowFiller"]
  | NJoin _ _ _ _ c =>
      "JoinConfig" :: if p "JoinConfig" then match c with Some (JUsing _) => ["JoinUsingCriteria"] | Some (JOn _) => ["JoinOnCriteria"] | None => [] end else []
  | _ => []
  end.
Definition parts_at (v : visitor) (e : node) : list string := if at_node v e then own_parts (at_part v) e else [].
Definition tally (v : visitor) (x : list string) (w : result (list seen)) : Prop :=
  forall l, w = Ok l -> Permutation (parts_of l) (x ++ concat (map (parts_at v) (nodes_of l))).
Lemma parts_app a b : parts_of (a ++ b) = parts_of a ++ parts_of b.
Proof. induction a as [|[e|c] a IH]; [reflexivity| |]; cbn [parts_of app]; now rewrite IH. Qed.
Lemma swap4 {A} (a b c d : list A) : Permutation ((a ++ b) ++ c ++ d) ((a ++ c) ++ b ++ d).
Proof. rewrite <- !app_assoc. apply Permutation_app_head. rewrite !app_assoc. apply Permutation_app_tail, Permutation_app_comm. Qed.
Lemma tally_nil v : tally v [] (Ok []).
Proof. intros l E. injection E as <-. constructor. Qed.
Lemma tally_err v x y : tally v x (Err y).
Proof. intros l E. discriminate E. Qed.
Lemma tally_then v x y a b : tally v x a -> tally v y b -> tally v (x ++ y) (walk_then a b).
Proof.
  intros A B l E. unfold walk_then in E. destruct a as [la|]; [|discriminate E]. destruct b as [lb|]; [|discriminate E].
  injection E as <-. rewrite parts_app, nodes_app, map_app, concat_app.
  eapply Permutation_trans; [apply Permutation_app; [exact (A la eq_refl)|exact (B lb eq_refl)]|]. apply swap4.
Qed.
Lemma tally_part v c x w : tally v x w -> tally v (c :: if at_part v c then x else []) (part v c w).
Proof.
  intros H l E. unfold part in E. destruct (at_part v c).
  - destruct w as [m|]; [|discriminate E]. injection E as <-. cbn [parts_of nodes_of app]. constructor. exact (H m eq_refl).
  - injection E as <-. repeat constructor.
Qed.
Lemma tally_list {A} v (f : A -> result (list seen)) x l : (forall a, In a l -> tally v x (f a)) ->
  tally v (concat (map (fun _ => x) l)) (walk_list f l).
Proof.
  induction l as [|a l IH]; intro H; [apply tally_nil|]. cbn [map concat].
  pose proof (tally_then v _ _ _ _ (H a (or_introl eq_refl)) (IH (fun b Hb => H b (or_intror Hb)))) as T.
  unfold walk_list, walk_then in *. cbn [each]. destruct (f a); cbn [bind] in *; [|exact T]. destruct (each f l); cbn [bind] in *; exact T.
Qed.
Lemma nothing {A} (l : list A) : concat (map (fun _ => @nil string) l) = [].
Proof. now induction l. Qed.
Lemma tally_nodes v l : (forall k, In k l -> tally v [] (walk_by v k)) -> tally v [] (walk_list (walk_by v) l).
Proof. intro H. rewrite <- (nothing l). now apply tally_list. Qed.
Lemma tally_opt v o : (forall k, o = Some k -> tally v [] (walk_by v k)) -> tally v [] (walk_opt (walk_by v) o).
Proof. destruct o as [k|]; intro H; [now apply H|apply tally_nil]. Qed.
Lemma permutation_concat_map {A B} (f : A -> list B) a b : Permutation a b -> Permutation (concat (map f a)) (concat (map f b)).
Proof. intro P. apply permutation_concat. now apply Permutation_map. Qed.
Lemma tally_args v (g : fn) args : (forall k, In k args -> tally v [] (walk_by v k)) ->
  tally v [] (let* ls := each (walk_by v) args in Ok (concat (if is_stats g then rev ls else ls))).
Proof.
  intros H l E. destruct (each (walk_by v) args) as [ls|x] eqn:L; cbn [bind] in E; [|discriminate E].
  assert (T : forall m, In m ls -> Permutation (parts_of m) (concat (map (parts_at v) (nodes_of m)))).
  { apply each_forall in L. clear E. induction L as [|k m ks ms K L IHL]; [intros m []|]. intros n [<-|I].
    - exact (H k (or_introl eq_refl) m K).
    - apply IHL; [intros; apply H; now right|exact I]. }
  assert (U : forall m, In m (if is_stats g then rev ls else ls) -> In m ls) by (destruct (is_stats g); intros m I; [now apply in_rev|exact I]).
  injection E as <-. cbn [app]. induction (if is_stats g then rev ls else ls) as [|m ms IH]; [constructor|]. cbn [concat].
  rewrite parts_app, nodes_app, map_app, concat_app. apply Permutation_app; [apply T, U; now left|apply IH; intros; apply U; now right].
Qed.
Theorem C71_parts : forall v e l, walk_by v e = Ok l -> Permutation (parts_of l) (concat (map (parts_at v) (nodes_of l))).
Proof.
  intros v e. change (tally v [] (walk_by v e)). induction e as [e IH] using kids_ind.
  assert (N : forall x w, x = parts_at v e -> tally v x w -> tally v [] (let* i := w in Ok (SeenNode e :: i))).
  { intros x [m|] -> T l E; cbn [bind] in E; [|discriminate E]. injection E as <-. cbn [parts_of nodes_of map concat app]. exact (T m eq_refl). }
  destruct (at_node v e) eqn:D.
  2: { destruct (foreign e) eqn:F; [rewrite (foreign_raises v e F); apply tally_err|]. rewrite (stops v e F D).
       intros l E. injection E as <-. cbn [parts_of nodes_of map concat app]. unfold parts_at. rewrite D. constructor. }
  unfold parts_at in N. rewrite D in N.
  destruct e as [|l t|n tr t|x a|tr t|x a|n|vs b|op x|op l r|a b c|vs|x q|x vs|a b c|x y|vs|x y z|tr x t|a b|bs el x
                |g args fo|g ps|x sp ov ob|x nf|sel fr wh gb hv d ws qa|op l r d qa|tb qa|es qa|n s c|r a cols|l r jt nat c|vs od|q|r st ps];
    cbn [walk_by]; rewrite D; cbn [negb own_parts kids] in *; try (eapply N; [reflexivity|apply tally_nil]); try apply tally_err;
    try (eapply N; [reflexivity|apply IH; now left]);
    try (eapply N; [reflexivity|apply tally_nodes; intros; apply IH; first [assumption|apply in_or_app; now left]]);
    try (eapply N; [reflexivity|apply (tally_then v [] []); apply IH; cbn [In]; auto]).
  - eapply N; [reflexivity|]. destruct tr as [|s|v']; [apply tally_nil..|]. cbn [walk_tref]. destruct (is_value v'); [apply IH; now left|apply tally_nil].
  - eapply N; [reflexivity|]. destruct tr as [|s|v']; [apply tally_nil..|]. cbn [walk_tref]. destruct (is_value v'); [apply IH; now left|apply tally_nil].
  - destruct vs; [|apply tally_err]. eapply N; [reflexivity|apply IH; now left].
  - eapply N; [reflexivity|]. apply (tally_then v [] []); [apply IH; cbn [In]; auto|]. apply (tally_then v [] []); apply IH; cbn [In]; auto.
  - eapply N; [reflexivity|]. apply (tally_then v [] []); [apply IH; now left|]. apply tally_nodes. intros; apply IH; now right.
  - eapply N; [reflexivity|]. apply (tally_then v [] []); [apply IH; cbn [In]; auto|]. apply (tally_then v [] []); [apply IH; cbn [In]; auto|].
    apply tally_opt. intros k ->. apply IH. right. right. now left.
  - eapply N; [reflexivity|]. apply tally_then; [|rewrite <- (app_nil_r match el with Some _ => ["Else"] | None => [] end); apply tally_then].
    + replace (map (fun _ : node * node => "When") bs) with (concat (map (fun _ : node * node => ["When"]) bs))
        by (clear; induction bs as [|cv bs IH]; [reflexivity|]; cbn [map concat app]; now rewrite IH).
      apply tally_list. intros [c y] I. cbn [part_branch].
      assert (Q : forall k, In k [c; y] -> tally v [] (walk_by v k)).
      { intros k Hk. apply IH. apply in_or_app. left. apply in_concat. exists [c; y]. split; [|exact Hk]. apply in_map_iff. now exists (c, y). }
      pose proof (tally_part v "When" _ _ (tally_then v [] [] _ _ (Q c (or_introl eq_refl)) (Q y (or_intror (or_introl eq_refl))))) as T.
      cbn [app] in T. now destruct (at_part v "When").
    + destruct el as [y|]; [|apply tally_nil]. cbn [walk_opt].
      assert (Q : tally v [] (walk_by v y)) by (apply IH; apply in_or_app; right; now left).
      apply (tally_part v "Else") in Q. now destruct (at_part v "Else").
    + apply tally_opt. intros k ->. apply IH. apply in_or_app. right. apply in_or_app. right. now left.
  - assert (T : tally v [] (let* ls := each (walk_by v) args in Ok (concat (if is_stats g then rev ls else ls))))
      by (apply tally_args; intros; apply IH, in_or_app; now left).
    destruct g; first [apply tally_err|exact (N [] _ eq_refl T)].
  - destruct ov as [o|]; [|eapply N; [reflexivity|apply IH; now left]].
    apply (N (["OverflowFiller"])); [reflexivity|]. apply (tally_then v [] ["OverflowFiller"]); [apply IH; now left|].
    pose proof (tally_part v "OverflowFiller" _ _ (tally_nil v)) as T. now destruct (at_part v "OverflowFiller").
  - eapply N; [reflexivity|]. match goal with |- tally v ?t _ => apply (tally_then v [] t) end; [apply IH; cbn [In]; auto|].
    match goal with |- tally v ?t _ => apply (tally_then v [] t) end; [apply IH; cbn [In]; auto|]. unfold part_criterion. destruct c as [[us|x]|].
    + pose proof (tally_part v "JoinConfig" _ _ (tally_part v "JoinUsingCriteria" _ _ (tally_nil v))) as T.
      now destruct (at_part v "JoinConfig"), (at_part v "JoinUsingCriteria").
    + pose proof (tally_part v "JoinConfig" _ _ (tally_part v "JoinOnCriteria" _ _ (IH x (or_intror (or_intror (or_introl eq_refl)))))) as T.
      now destruct (at_part v "JoinConfig"), (at_part v "JoinOnCriteria").
    + apply (tally_part v "JoinConfig" [] (Err AttributeError)). apply tally_err.
Qed.
Print Assumptions C71_parts.

(** * Cases *)
Local Definition column n := NField n TRNone unknown.
(** SELECT c FROM t *)
Local Definition query_of_case := NSelect [column "c"] (Some (NTable "t" None None)) None None None false [] (mkQ [] [] None None).
(** NOT a IN (SELECT c FROM t) AND CASE WHEN b THEN a END *)
Local Definition tree_of_case :=
  NBin BAnd (NUn UNot (NInQuery (column "a") query_of_case)) (NCase [(column "b", column "a")] None None).
Local Definition not_query (e : node) : bool := match e with NSelect _ _ _ _ _ _ _ _ => false | _ => true end.
Local Definition columns (l : list seen) : list string :=
  concat (map (fun x => match x with NField n _ _ => [n] | _ => [] end) (nodes_of l)).
Example C71_case :
  walk tree_of_case = Err AttributeError
  /\ match walk_by (mkVisitor not_query (fun _ => true)) tree_of_case with Ok l => columns l = ["a"; "b"; "a"] | Err _ => False end
  /\ match walk_by (mkVisitor not_query (fun _ => false)) tree_of_case with Ok l => columns l = ["a"] | Err _ => False end.
Proof. vm_compute. repeat split; reflexivity. Qed.
Example C71_case_clear : clear_to not_query tree_of_case.
Proof.
  apply clear_on; [reflexivity|exact Logic.I|]. intros k [<-|[<-|[]]].
  - apply clear_on; [reflexivity|exact Logic.I|]. intros k [<-|[]]. apply clear_on; [reflexivity|exact Logic.I|].
    intros k [<-|[<-|[]]]; [|now apply clear_stop]. apply clear_on; [reflexivity|exact Logic.I|]. intros k [].
  - apply clear_on; [reflexivity|exact Logic.I|]. cbn [kids map concat fst snd app opt_kids].
    intros k [<-|[<-|[]]]; (apply clear_on; [reflexivity|exact Logic.I|]; intros k []).
Qed.
