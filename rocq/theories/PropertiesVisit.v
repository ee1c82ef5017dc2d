(** Properties of traversals with a visitor (C54). *)
From Coq Require Import String List ZArith Bool Lia Permutation.
From Verif Require Import PyStr Types Inference Functions Ast Walk Tokens NodeFacts PropertiesScope Visit.
Import ListNotations.
Open Scope nat_scope.
Open Scope string_scope.
Open Scope list_scope.

(** * Specification *)
(** All objects of a tree in the order of the text, each before its parts. *)
Inductive preorder : node -> list node -> Prop :=
| pre e ls : Forall2 preorder (kids e) ls -> preorder e (e :: concat ls).
(** The nodes among what is noted. *)
Fixpoint nodes_of (l : list seen) : list node :=
  match l with
  | [] => []
  | SeenNode e :: r => e :: nodes_of r
  | SeenPart _ :: r => nodes_of r
  end.
(** The parts of an object the [visit] method hands on. *)
Definition visited (e : node) : list node :=
  match e with
  | NField _ (TRVal v) _ | NStar (TRVal v) _ => if is_value v then [v] else []
  | NFunc g args _ => if is_stats g then rev args else args
  | NListAgg v _ _ _ => [v]
  | NSelect _ _ _ _ _ _ _ _ => []
  | NSetQuery _ l r _ _ => [l; r]
  | NTableQuery t _ => [t]
  | NValues es _ => es
  | _ => kids e
  end.
(** Objects the [visit] method or the visitor itself cannot handle. *)
Definition stuck (e : node) : bool :=
  match e with
  | NNone | NVar _ | NLambda (_ :: _) _ | NSelect _ _ _ _ _ _ _ _ | NFunc FQDigestAgg _ _ | NJoin _ _ _ _ None => true
  | _ => false
  end.
Inductive traversable : node -> Prop :=
| trv e : stuck e = false -> (forall k, In k (visited e) -> traversable k) -> traversable e.

(** * One step *)
Lemma nodes_app a b : nodes_of (a ++ b) = nodes_of a ++ nodes_of b.
Proof. induction a as [|[e|c] a IH]; [reflexivity| |]; cbn [nodes_of app]; now rewrite IH. Qed.
Lemma nodes_concat ls : nodes_of (concat ls) = concat (map nodes_of ls).
Proof. induction ls as [|l ls IH]; [reflexivity|]. cbn [concat map]. now rewrite nodes_app, IH. Qed.

(** A walk over something with the nodes [ks]: it succeeds iff it does on each node, the
    nodes noted are those noted for each, in order, and only AttributeError is raised. *)
Definition over (ks : list node) (w : result (list seen)) : Prop :=
  match w with
  | Ok l => exists ls, each walk ks = Ok ls /\ nodes_of l = concat (map nodes_of ls)
  | Err x => x = AttributeError /\ exists k y, In k ks /\ walk k = Err y
  end.
Definition fails_well (k : node) : Prop := forall x, walk k = Err x -> x = AttributeError.
Lemma each_app {A B} (f : A -> result B) a b x y : each f a = Ok x -> each f b = Ok y -> each f (a ++ b) = Ok (x ++ y).
Proof.
  revert x. induction a as [|h a IH]; intros x X Y; cbn [each app] in *.
  - now injection X as <-.
  - destruct (f h); [|discriminate X]. cbn [bind] in *. destruct (each f a); [|discriminate X]. injection X as <-.
    cbn [bind]. now rewrite (IH _ eq_refl Y).
Qed.
Lemma over_one k : fails_well k -> over [k] (walk k).
Proof.
  intro F. unfold over. destruct (walk k) as [l|x] eqn:E.
  - exists [l]. cbn [each map concat]. rewrite E. cbn [bind]. rewrite app_nil_r. now split.
  - split; [now apply F|]. exists k, x. split; [now left|exact E].
Qed.
Lemma over_nil : over [] (Ok []).
Proof. now exists []. Qed.
Lemma over_noted ks c w : over ks w -> over ks (noted c w).
Proof. destruct w as [l|x]; cbn [over noted bind]; intro H; exact H. Qed.
Lemma over_then ks ms a b : over ks a -> over ms b -> over (ks ++ ms) (walk_then a b).
Proof.
  unfold walk_then. destruct a as [la|x]; cbn [over bind].
  - intros (l1 & E1 & N1). destruct b as [lb|x]; cbn [over bind].
    + intros (l2 & E2 & N2). exists (l1 ++ l2). split; [now apply each_app|].
      now rewrite nodes_app, map_app, concat_app, N1, N2.
    + intros (X & k & y & I & W). split; [exact X|]. exists k, y. split; [apply in_or_app; now right|exact W].
  - intros (X & k & y & I & W) _. split; [exact X|]. exists k, y. split; [apply in_or_app; now left|exact W].
Qed.
Lemma over_list {A} (K : A -> list node) f (l : list A) :
  (forall a, In a l -> over (K a) (f a)) -> over (concat (map K l)) (walk_list f l).
Proof.
  induction l as [|a l IH]; intro H; [apply over_nil|].
  cbn [map concat]. unfold walk_list. cbn [each].
  pose proof (over_then _ _ _ _ (H a (or_introl eq_refl)) (IH (fun b Hb => H b (or_intror Hb)))) as O.
  unfold walk_list, walk_then in O. destruct (f a) as [x|]; cbn [bind] in *; [|exact O].
  destruct (each f l); cbn [bind] in *; exact O.
Qed.
Lemma over_nodes l : (forall k, In k l -> fails_well k) -> over l (walk_list walk l).
Proof.
  intro H. rewrite <- (map_id l) at 1. replace (map (fun x => x) l) with (concat (map (fun x => [x]) l)).
  - apply over_list. intros a Ha. apply over_one. now apply H.
  - clear H. induction l as [|a l IH]; [reflexivity|]. cbn [map concat app]. now rewrite IH.
Qed.
Lemma over_opt o : (forall k, o = Some k -> fails_well k) -> over (opt_kids o) (walk_opt walk o).
Proof. destruct o as [k|]; intro H; [|apply over_nil]. apply over_one. now apply H. Qed.
Lemma over_order (o : order node) : fails_well (o_value o) -> over [o_value o] (walk_order walk o).
Proof. destruct o as [v d n]. intro H. apply over_noted, over_one, H. Qed.
Lemma over_bound b : (forall k, In k (bound_kids b) -> fails_well k) -> over (bound_kids b) (walk_bound walk b).
Proof.
  destruct b as [d v|d|]; intro H; cbn [walk_bound bound_kids] in *; apply over_noted; [|apply over_nil..].
  apply over_one, H. now left.
Qed.
Lemma over_case (bs : list (node * node)) : (forall k, In k (concat (map (fun cv => [fst cv; snd cv]) bs)) -> fails_well k) ->
  over (concat (map (fun cv => [fst cv; snd cv]) bs)) (walk_list (walk_branch walk) bs).
Proof.
  intro H. apply over_list. intros [c v] I. cbn [fst snd walk_branch].
  assert (S : forall k, In k [c; v] -> fails_well k).
  { intros k Hk. apply H. apply in_concat. exists [c; v]. split; [|exact Hk].
    apply in_map_iff. now exists (c, v). }
  apply over_noted. change [c; v] with ([c] ++ [v]).
  apply over_then; apply over_one, S; [now left|right; now left].
Qed.
Lemma each_rev {A B} (f : A -> result B) l ls : each f l = Ok ls -> each f (rev l) = Ok (rev ls).
Proof.
  revert ls. induction l as [|a l IH]; intros ls H; cbn [each rev] in *; [now injection H as <-|].
  destruct (f a) as [b|] eqn:E; [|discriminate H]. cbn [bind] in H. destruct (each f l) as [m|]; [|discriminate H].
  injection H as <-. cbn [rev]. apply each_app; [now apply IH|]. cbn [each]. now rewrite E.
Qed.
Lemma each_err {A B} (f : A -> result B) l x : each f l = Err x -> exists a, In a l /\ f a = Err x.
Proof.
  induction l as [|a l IH]; cbn [each]; intro H; [discriminate H|].
  destruct (f a) as [b|y] eqn:E; cbn [bind] in H.
  - destruct (each f l) as [m|y]; cbn [bind] in H; [discriminate H|]. injection H as <-.
    destruct (IH eq_refl) as (c & I & F). exists c. split; [now right|exact F].
  - injection H as <-. exists a. split; [now left|exact E].
Qed.
Lemma over_args (g : fn) args : (forall k, In k args -> fails_well k) ->
  over (if is_stats g then rev args else args) (let* ls := each walk args in Ok (concat (if is_stats g then rev ls else ls))).
Proof.
  intro H. destruct (each walk args) as [ls|x] eqn:E; cbn [bind over].
  - exists (if is_stats g then rev ls else ls). split; [|apply nodes_concat].
    destruct (is_stats g); [now apply each_rev|exact E].
  - destruct (each_err _ _ _ E) as (a & I & W). split; [exact (H a I x W)|]. exists a, x. split; [|exact W].
    destruct (is_stats g); [now apply -> in_rev|exact I].
Qed.

Definition outcome (e : node) : Prop :=
  (stuck e = true /\ walk e = Err AttributeError)
  \/ (stuck e = false /\ exists w, over (visited e) w /\ walk e = (let* l := w in Ok (SeenNode e :: l))).
Ltac goes := right; split; [reflexivity|]; eexists; split; [|reflexivity].
Lemma step e : (forall k, In k (visited e) -> fails_well k) -> outcome e.
Proof.
  unfold outcome.
  destruct e as [|l t|n tr t|v a|tr t|v a|n|vs b|op v|op l r|a b c|vs|v q|v vs|a b c|x y|vs|x y z|tr v t|a b|bs el v
                |g args fo|g p|v sp ov ob|v nf|sel fr wh gb hv d ws qa|op l r d qa|tb qa|es qa|n s c|r a cols|l r jt nat c|vs od|q|r st p];
    intro H; try (left; now split); try (goes; apply over_nil);
    try (goes; apply over_one, H; now left); try (goes; now apply over_nodes).
  - goes. destruct tr as [|s|v]; [apply over_nil..|]. cbn [visited walk_tref] in *.
    destruct (is_value v); [apply over_one, H; now left|apply over_nil].
  - goes. destruct tr as [|s|v]; [apply over_nil..|]. cbn [visited walk_tref] in *.
    destruct (is_value v); [apply over_one, H; now left|apply over_nil].
  - destruct vs; [|left; now split]. goes. apply over_one, H. now left.
  - goes. change (visited (NBin op l r)) with ([l] ++ [r]). apply over_then; apply over_one, H; [now left|right; now left].
  - goes. change (visited (NBetween a b c)) with ([a] ++ [b] ++ [c]).
    apply over_then; [|apply over_then]; apply over_one, H; [now left|right; now left|right; right; now left].
  - goes. change (visited (NInQuery v q)) with ([v] ++ [q]). apply over_then; apply over_one, H; [now left|right; now left].
  - goes. change (visited (NInList v vs)) with ([v] ++ vs). apply over_then; [apply over_one, H; now left|].
    apply over_nodes. intros k Hk. apply H. now right.
  - goes. change (visited (NLike a b c)) with ([a] ++ [b] ++ opt_kids c).
    apply over_then; [|apply over_then]; [apply over_one, H; now left|apply over_one, H; right; now left|].
    apply over_opt. intros k ->. apply H. right. right. now left.
  - goes. change (visited (NSubscript a b)) with ([a] ++ [b]). apply over_then; apply over_one, H; [now left|right; now left].
  - goes. cbn [visited kids] in *. apply over_then; [|apply over_then].
    + apply over_case. intros k Hk. apply H. apply in_or_app. now left.
    + destruct el as [x|]; [|apply over_nil]. apply over_noted, over_one, H. apply in_or_app. right. now left.
    + apply over_opt. intros k ->. apply H. apply in_or_app. right. apply in_or_app. right. now left.
  - destruct (stuck (NFunc g args fo)) eqn:S.
    + left. split; [reflexivity|]. destruct g; try discriminate S. reflexivity.
    + right. split; [reflexivity|]. exists (let* ls := each walk args in Ok (concat (if is_stats g then rev ls else ls))).
      split; [|destruct g; try reflexivity; discriminate S].
      apply (over_args g). intros k Hk. apply H. cbn [visited]. destruct (is_stats g); [now apply -> in_rev|exact Hk].
  - destruct ov as [o|].
    + goes. change (visited (NListAgg v sp (Some o) ob)) with ([v] ++ []). apply over_then; [apply over_one, H; now left|].
      apply over_noted, over_nil.
    + goes. apply over_one, H. now left.
  - goes. change (visited (NSetQuery op l r d qa)) with ([l] ++ [r]). apply over_then; apply over_one, H; [now left|right; now left].
  - destruct c as [c|].
    + goes. cbn [visited kids]. change (l :: r :: jcrit_kids c) with ([l] ++ [r] ++ jcrit_kids c).
      apply over_then; [|apply over_then]; [apply over_one, H; now left|apply over_one, H; right; now left|].
      unfold walk_criterion. apply over_noted. destruct c as [us|x]; apply over_noted; [apply over_nil|].
      apply over_one, H. right. right. now left.
    + left. split; [reflexivity|]. cbn [walk walk_criterion noted]. unfold walk_then.
      destruct (walk l) as [x|x] eqn:El; cbn [bind]; [|f_equal; apply (H l); [now left|exact El]].
      destruct (walk r) as [y|y] eqn:Er; cbn [bind]; [reflexivity|f_equal; apply (H r); [right; now left|exact Er]].
  - goes. change (visited (NSample r st p)) with ([r] ++ [p]). apply over_then; apply over_one, H; [now left|right; now left].
Qed.
Lemma visited_kids e : exists m, Permutation (visited e ++ m) (kids e).
Proof.
  destruct e as [|l t|n tr t|v a|tr t|v a|n|vs b|op v|op l r|a b c|vs|v q|v vs|a b c|x y|vs|x y z|tr v t|a b|bs el v
                |g args fo|g p|v sp ov ob|v nf|sel fr wh gb hv d ws qa|op l r d qa|tb qa|es qa|n s c|r a cols|l r jt nat c|vs od|q|r st p];
    try (exists []; cbn [visited]; rewrite app_nil_r; apply Permutation_refl).
  - destruct tr as [|s|v]; [now exists []..|]. cbn [visited kids tref_kids]. destruct (is_value v); [now exists []|now exists [v]].
  - destruct tr as [|s|v]; [now exists []..|]. cbn [visited kids tref_kids]. destruct (is_value v); [now exists []|now exists [v]].
  - exists (fopts_kids fo). cbn [visited kids]. apply Permutation_app_tail. destruct (is_stats g); [|apply Permutation_refl].
    apply Permutation_sym, Permutation_rev.
  - exists (map o_value ob). apply Permutation_refl.
  - eexists. apply Permutation_refl.
  - exists (qattrs_kids qa). apply Permutation_refl.
  - exists (qattrs_kids qa). apply Permutation_refl.
  - exists (qattrs_kids qa). apply Permutation_refl.
Qed.
Lemma visited_in e k : In k (visited e) -> In k (kids e).
Proof.
  intro I. destruct (visited_kids e) as [m P]. apply (Permutation_in k P). apply in_or_app. now left.
Qed.
Lemma all_fail_well e : fails_well e.
Proof.
  induction e as [e IH] using kids_ind.
  destruct (step e (fun k Hk => IH k (visited_in _ _ Hk))) as [[_ W]|(_ & w & O & W)]; intros x X.
  - congruence.
  - rewrite W in X. destruct w as [l|y]; cbn [bind] in X; [discriminate X|]. destruct O as (-> & _). congruence.
Qed.

(** * Theorems *)
(** Nothing but AttributeError is raised by a traversal. *)
Theorem C54_only_attribute_error : forall e x, walk e = Err x -> x = AttributeError.
Proof. exact all_fail_well. Qed.
Print Assumptions C54_only_attribute_error.

(** When it is not raised. *)
Lemma each_all {A B} (f : A -> result B) l ls : each f l = Ok ls -> forall a, In a l -> exists b, f a = Ok b.
Proof.
  intro E. apply each_forall in E. induction E as [|a b l m H F IH]; intros c []; subst; eauto.
Qed.
Lemma each_total {A B} (f : A -> result B) l : (forall a, In a l -> exists b, f a = Ok b) -> exists ls, each f l = Ok ls.
Proof.
  induction l as [|a l IH]; intro H; [now exists []|]. cbn [each].
  destruct (H a (or_introl eq_refl)) as [b ->]. cbn [bind].
  destruct (IH (fun c Hc => H c (or_intror Hc))) as [m ->]. cbn [bind]. eauto.
Qed.
Theorem C54_when : forall e, (exists l, walk e = Ok l) <-> traversable e.
Proof.
  induction e as [e IH] using kids_ind.
  destruct (step e (fun k _ => all_fail_well k)) as [[S W]|(S & w & O & W)]; rewrite W.
  - split; [intros [l L]; discriminate L|]. inversion 1; congruence.
  - destruct w as [l|x]; cbn [bind over] in *.
    + destruct O as (ls & E & _). split; [intros _|eauto]. constructor; [exact S|].
      intros k Hk. apply IH; [now apply visited_in|]. eapply each_all; eassumption.
    + split; [intros [l L]; discriminate L|]. destruct O as (_ & k & y & I & K).
      inversion 1 as [? _ T]; subst. apply T in I as Tk. apply IH in Tk; [|now apply visited_in].
      destruct Tk as [l L]. congruence.
Qed.
Print Assumptions C54_when.

(** Every object of the tree is noted at most once, and nothing else is. *)
Lemma preorder_total e : exists l, preorder e l.
Proof.
  induction e as [e IH] using kids_ind.
  assert (exists ls, Forall2 preorder (kids e) ls) as [ls F].
  { induction (kids e) as [|k ks IHk]; [now exists []|].
    destruct (IH k (or_introl eq_refl)) as [l L]. destruct IHk as [ls F]; [intros x Hx; apply IH; now right|].
    exists (l :: ls). now constructor. }
  eexists. constructor. exact F.
Qed.
Lemma permutation_concat {A} (a b : list (list A)) : Permutation a b -> Permutation (concat a) (concat b).
Proof.
  induction 1 as [|x a b P IH|x y a|a b c P IH Q JH]; cbn [concat].
  - constructor.
  - now apply Permutation_app_head.
  - rewrite !app_assoc. apply Permutation_app_tail, Permutation_app_comm.
  - eapply Permutation_trans; eassumption.
Qed.
Lemma forall2_permute {A B} (R : A -> B -> Prop) a b l :
  Permutation a b -> Forall2 R a l -> exists m, Permutation l m /\ Forall2 R b m.
Proof.
  intro P. revert l. induction P as [|x a b P IH|x y a|a b c P IH Q JH]; intros l F.
  - inversion F; subst. now exists [].
  - inversion F as [|? u ? m Rx Fm]; subst. destruct (IH _ Fm) as (m' & Pm & Fm'). exists (u :: m'). split; [now constructor|now constructor].
  - inversion F as [|? u ? m Rx Fm]; subst. inversion Fm as [|? v ? m' Ry Fm']; subst.
    exists (v :: u :: m'). split; [constructor|]. constructor; [exact Ry|now constructor].
  - destruct (IH _ F) as (m & Pm & Fm). destruct (JH _ Fm) as (m' & Pm' & Fm').
    exists m'. split; [eapply Permutation_trans; eassumption|exact Fm'].
Qed.
Theorem C54_at_most_once : forall e l, walk e = Ok l ->
  exists all rest, preorder e all /\ Permutation (nodes_of l ++ rest) all.
Proof.
  induction e as [e IH] using kids_ind. intros l L.
  destruct (step e (fun k _ => all_fail_well k)) as [[S W]|(S & w & O & W)]; rewrite W in L; [discriminate L|].
  destruct w as [m|x]; cbn [bind over] in *; [|discriminate L]. injection L as <-.
  destruct O as (ls & E & N). destruct (visited_kids e) as [miss P].
  assert (V : exists xs rest, Forall2 preorder (visited e) xs /\ Permutation (concat (map nodes_of ls) ++ rest) (concat xs)).
  { apply each_forall in E. clear -E IH.
    assert (I : forall k, In k (visited e) -> In k (kids e)) by apply visited_in.
    induction E as [|k x ks xs H F IHF]; [now exists [], []|].
    destruct IHF as (ys & rest & Fy & Py); [intros; apply I; now right|].
    destruct (IH k (I k (or_introl eq_refl)) x H) as (all & r & Pa & Pr).
    exists (all :: ys), (r ++ rest). split; [now constructor|]. cbn [map concat].
    eapply Permutation_trans; [|apply Permutation_app; [exact Pr|exact Py]].
    rewrite <- !app_assoc. apply Permutation_app_head.
    rewrite !app_assoc. apply Permutation_app_tail, Permutation_app_comm. }
  destruct V as (xs & rest & Fx & Px).
  assert (M : exists ys, Forall2 preorder miss ys).
  { clear. induction miss as [|k ks [ys F]]; [now exists []|]. destruct (preorder_total k) as [l L]. exists (l :: ys). now constructor. }
  destruct M as [ys Fy].
  destruct (forall2_permute preorder _ _ _ P (Forall2_app Fx Fy)) as (zs & Pz & Fz).
  exists (e :: concat zs), (rest ++ concat ys). split; [now constructor|].
  cbn [nodes_of app]. constructor. rewrite N, app_assoc.
  eapply Permutation_trans; [apply Permutation_app_tail; exact Px|].
  rewrite <- concat_app. now apply permutation_concat.
Qed.
Print Assumptions C54_at_most_once.

(** Where nothing is missed, and the order is that of the text. *)
Definition plain_here (e : node) : Prop :=
  match e with
  | NNone | NVar _ | NLambda (_ :: _) _ | NSelect _ _ _ _ _ _ _ _ | NListAgg _ _ _ _ => False
  | NField _ (TRVal v) _ | NStar (TRVal v) _ => is_value v = true
  | NFunc g _ fo => g <> FQDigestAgg /\ is_stats g = false /\ fopts_empty fo = true
  | NSetQuery _ _ _ _ (mkQ wi ob _ _) | NTableQuery _ (mkQ wi ob _ _) | NValues _ (mkQ wi ob _ _) => wi = [] /\ ob = []
  | NJoin _ _ _ _ c => c <> None
  | _ => True
  end.
Inductive plain : node -> Prop :=
| pl e : plain_here e -> (forall k, In k (kids e) -> plain k) -> plain e.
Lemma plain_visited e : plain_here e -> stuck e = false /\ visited e = kids e.
Proof.
  destruct e as [|l t|n tr t|v a|tr t|v a|n|vs b|op v|op l r|a b c|vs|v q|v vs|a b c|x y|vs|x y z|tr v t|a b|bs el v
                |g args fo|g p|v sp ov ob|v nf|sel fr wh gb hv d ws qa|op l r d qa|tb qa|es qa|n s c|r a cols|l r jt nat c|vs od|q|r st p];
    cbn [plain_here]; intro H; try (now destruct H); try (now split).
  - destruct tr as [|s|v]; [now split..|]. cbn [stuck visited]. rewrite H. now split.
  - destruct tr as [|s|v]; [now split..|]. cbn [stuck visited]. rewrite H. now split.
  - destruct vs; [now split|destruct H].
  - destruct H as (Q & S & F). cbn [visited kids]. rewrite S.
    destruct fo as [[|] [|] [|] []]; try discriminate F. cbn [fopts_kids map opt_kids app]. rewrite app_nil_r.
    split; [|reflexivity]. destruct g; try reflexivity. now destruct Q.
  - destruct qa as [wi ob off lim]. destruct H as [-> ->]. now split.
  - destruct qa as [wi ob off lim]. destruct H as [-> ->]. now split.
  - destruct qa as [wi ob off lim]. destruct H as [-> ->]. cbn [stuck visited kids qattrs_kids map app]. now rewrite app_nil_r.
  - destruct c; [now split|now destruct H].
Qed.
Theorem C54_all_in_order : forall e, plain e -> exists l, walk e = Ok l /\ preorder e (nodes_of l).
Proof.
  induction e as [e IH] using kids_ind. intro P. inversion P as [? H K]; subst.
  destruct (plain_visited e H) as [S V].
  destruct (step e (fun k _ => all_fail_well k)) as [[S' _]|(_ & w & O & W)]; [congruence|].
  rewrite V in O. destruct w as [l|x]; cbn [bind over] in *.
  - destruct O as (ls & E & N). eexists. split; [exact W|]. cbn [nodes_of]. rewrite N. constructor.
    apply each_forall in E. clear -IH K E. induction E as [|k x ks xs F E IHE]; [constructor|].
    cbn [map]. constructor.
    + destruct (IH k (or_introl eq_refl) (K k (or_introl eq_refl))) as (l & L & R). congruence.
    + apply IHE; intros; [apply IH|apply K]; try assumption; now right.
  - destruct O as (_ & k & y & I & F). destruct (IH k I (K k I)) as (l & L & _). congruence.
Qed.
Print Assumptions C54_all_in_order.

(** * What cannot be traversed, and what is passed over *)
Theorem C54_select_raises : forall sel fr wh gb hv d ws qa, walk (NSelect sel fr wh gb hv d ws qa) = Err AttributeError.
Proof. reflexivity. Qed.
Print Assumptions C54_select_raises.
Theorem C54_join_raises : forall l r jt nat, walk (NJoin l r jt nat None) = Err AttributeError.
Proof. intros. destruct (step (NJoin l r jt nat None) (fun k _ => all_fail_well k)) as [[_ W]|[S _]]; [exact W|discriminate S]. Qed.
Print Assumptions C54_join_raises.
Theorem C54_lambda_raises : forall n vs b, walk (NLambda (n :: vs) b) = Err AttributeError.
Proof. reflexivity. Qed.
Print Assumptions C54_lambda_raises.
(** The keyword arguments of an aggregate function are not looked at. *)
Theorem C54_keywords_passed_over : forall g args fo fo' l,
  walk (NFunc g args fo) = Ok (SeenNode (NFunc g args fo) :: l) -> walk (NFunc g args fo') = Ok (SeenNode (NFunc g args fo') :: l).
Proof.
  intros g args fo fo' l H. cbn [walk] in *.
  assert (E : forall X Y, match g with
     | FQDigestAgg => Err AttributeError
     | _ => let* ls := each walk args in Ok (concat (if is_stats g then rev ls else ls))
     end = X -> (let* inner := X in Ok (SeenNode Y :: inner)) = Ok (SeenNode Y :: l) -> X = Ok l).
  { intros [x|x] Y _ B; cbn [bind] in B; [now injection B as ->|discriminate B]. }
  destruct g; cbn [bind] in *; try discriminate H; now rewrite (E _ _ eq_refl H).
Qed.
Print Assumptions C54_keywords_passed_over.

(** Windows and groups, for themselves. *)
Theorem C54_window : forall w, (forall k, In k (window_kids w) -> traversable k) ->
  exists l ls, walk_window walk w = Ok (SeenPart "Window" :: l)
               /\ Forall2 (fun k x => walk k = Ok x) (window_kids w) ls /\ nodes_of l = concat (map nodes_of ls).
Proof.
  intros [p ob ps fr st en] T. cbn [window_kids] in *.
  assert (O : over (map o_value ob ++ ps ++ bound_kids st ++ bound_kids en)
                (walk_then (walk_list (walk_order walk) ob) (walk_then (walk_list walk ps) (walk_then (walk_bound walk st) (walk_bound walk en))))).
  { apply over_then; [|apply over_then; [apply over_nodes; intros; apply all_fail_well|apply over_then; apply over_bound; intros; apply all_fail_well]].
    replace (map o_value ob) with (concat (map (fun o => [o_value o]) ob))
      by (clear; induction ob as [|o ob IH]; [reflexivity|]; cbn [map concat app]; now rewrite IH).
    apply over_list. intros o _. apply over_order, all_fail_well. }
  unfold walk_window, noted. destruct (walk_then _ _) as [l|x]; cbn [bind over] in *.
  - destruct O as (ls & E & N). exists l, ls. split; [reflexivity|]. split; [now apply each_forall|exact N].
  - destruct O as (_ & k & y & I & K). apply T, C54_when in I as [l L]. congruence.
Qed.
Print Assumptions C54_window.
Theorem C54_groupby : forall g, (forall k, In k (groupby_kids g) -> traversable k) ->
  exists l ls, walk_groupby walk g = Ok (SeenPart "GroupBy" :: l)
               /\ Forall2 (fun k x => walk k = Ok x) (groupby_kids g) ls /\ nodes_of l = concat (map nodes_of ls).
Proof.
  intros [gs d] T. cbn [groupby_kids] in *.
  assert (O : over (concat (map group_kids gs)) (walk_list (walk_group walk) gs)).
  { apply over_list. intros [l|ll|l|l] _; cbn [walk_group group_kids]; apply over_noted;
      try (apply over_nodes; intros; apply all_fail_well).
    rewrite <- (map_id ll) at 1. apply over_list. intros l _. apply over_noted, over_nodes. intros; apply all_fail_well. }
  unfold walk_groupby, noted. destruct (walk_list _ _) as [l|x]; cbn [bind over] in *.
  - destruct O as (ls & E & N). exists l, ls. split; [reflexivity|]. split; [now apply each_forall|exact N].
  - destruct O as (_ & k & y & I & K). apply T, C54_when in I as [l L]. congruence.
Qed.
Print Assumptions C54_groupby.

(** * Cases *)
Local Definition col n := NField n TRNone unknown.
Local Definition num z := NLit (LInt z) integer.
Local Definition no_opts : fopts node := mkFopts [] None None false.
(** CASE WHEN a BETWEEN 1 AND 2 THEN b ELSE COALESCE(a, b) END IN (b, ROW(a)) over a joined sample. *)
Local Definition case_part : node :=
  NCase [(NBetween (col "a") (num 1) (num 2), col "b")] (Some (NFunc FCoalesce [col "a"; col "b"] no_opts)) None.
Local Definition sample : node :=
  NJoin (NSample (NTable "t" None None) Bernoulli (num 10)) (NAliasedRel (NUnnest [NArray [num 1]] false) "u" ["b"])
        JInner false (Some (JOn (NInList case_part [col "b"; NRow [col "a"]]))).
Ltac all_parts := constructor; [first [exact I | split; [discriminate|split; reflexivity] | discriminate]|];
  cbn [kids concat map app fst snd opt_kids jcrit_kids tref_kids fopts_kids];
  intros ? X; repeat (destruct X as [<-|X]; [all_parts|]); destruct X.
Example C54_case_plain : plain sample.
Proof. unfold sample, case_part, no_opts, col, num. all_parts. Qed.
Example C54_case :
  match walk sample with
  | Ok l => map (fun s => match s with SeenNode _ => "" | SeenPart c => c end) l
            = [""; ""; ""; ""; ""; ""; ""; ""; "JoinConfig"; "JoinOnCriteria"; ""; ""; "When"; ""; ""; ""; ""; ""; "Else"; ""; ""; ""; ""; ""; ""]
            /\ length (nodes_of l) = 21
  | Err _ => False
  end.
Proof. vm_compute. split; reflexivity. Qed.
Example C54_missed_case :
  let f := NFunc FSum [col "a"] (mkFopts [mkOrder (col "b") false false] (Some (NBin BGt (col "c") (num 0))) None false) in
  traversable f /\ walk f = Ok [SeenNode f; SeenNode (col "a")].
Proof.
  split; [|reflexivity]. constructor; [reflexivity|]. intros k [<-|[]]. constructor; [reflexivity|]. intros k [].
Qed.
Example C54_window_case :
  walk_window walk (mkWindow None [mkOrder (col "a") false false] [col "b"] FTRows (BBounded false (num 2)) BCurrent)
  = Ok [SeenPart "Window"; SeenPart "OrderTerm"; SeenNode (col "a"); SeenNode (col "b"); SeenPart "BoundedFrameBound";
        SeenNode (num 2); SeenPart "CurrentFrameBound"].
Proof. reflexivity. Qed.
Example C54_groupby_case :
  walk_groupby walk (mkG [GSet [col "a"]; GSets [[col "b"]; []]] true)
  = Ok [SeenPart "GroupBy"; SeenPart "GroupingSet"; SeenNode (col "a"); SeenPart "GroupingSetList"; SeenPart "GroupingSet";
        SeenNode (col "b"); SeenPart "GroupingSet"].
Proof. reflexivity. Qed.
(** Not every object of a tree that is traversed is seen, and not always in the order of the text. *)
Theorem C54_all_seen_refuted : exists e l x, walk e = Ok l /\ In x (kids e) /\ ~ In x (nodes_of l).
Proof.
  exists (NFunc FSum [col "a"] (mkFopts [] (Some (col "c")) None false)). eexists. exists (col "c").
  split; [reflexivity|]. split; [right; now left|]. cbn [nodes_of]. intros [X|[X|[]]]; discriminate X.
Qed.
Print Assumptions C54_all_seen_refuted.
Theorem C54_order_refuted : exists e l, walk e = Ok l /\ Permutation (nodes_of l) (e :: kids e) /\ ~ preorder e (nodes_of l).
Proof.
  exists (NFunc FCorr [col "y"; col "x"] no_opts). eexists. split; [reflexivity|]. cbn [nodes_of kids fopts_kids no_opts map opt_kids app].
  split; [repeat constructor|]. inversion 1 as [? ls F E]. cbn in F. inversion F as [|? ? ? ? A B]; subst. inversion A; subst. discriminate.
Qed.
Print Assumptions C54_order_refuted.
