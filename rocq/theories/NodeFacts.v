(** Facts about the direct parts of a node and about rebuilding it. *)
From Coq Require Import String List ZArith Bool Lia.
From Verif Require Import PyStr Types Functions Ast Parser Tokens Walk.
Import ListNotations.
Open Scope string_scope.
Open Scope list_scope.

(** * Induction on objects *)
Lemma kids_ind (P : node -> Prop) (H : forall e, (forall x, In x (kids e) -> P x) -> P e) : forall e, P e.
Proof.
  fix IH 1. intro e. apply H.
  destruct e; cbn [kids]; intros x Hin;
    repeat match goal with
      | Hin : In _ (_ ++ _) |- _ => apply in_app_or in Hin; destruct Hin as [Hin|Hin]
      | Hin : In _ (_ :: _) |- _ => destruct Hin as [<-|Hin]; [apply IH|]
      | Hin : In _ [] |- _ => destruct Hin
      | Hin : In _ (opt_kids ?o) |- _ => destruct o; cbn [opt_kids] in Hin
      | Hin : In _ (tref_kids ?o) |- _ => destruct o; cbn [tref_kids] in Hin
      | Hin : In _ (bound_kids ?o) |- _ => destruct o; cbn [bound_kids] in Hin
      | Hin : In _ (jcrit_kids ?o) |- _ => destruct o; cbn [jcrit_kids] in Hin
      | Hin : In _ (match ?o with _ => _ end) |- _ => destruct o
      | Hin : In _ (fopts_kids ?o) |- _ => destruct o; cbn [fopts_kids] in Hin
      | Hin : In _ (window_kids ?o) |- _ => destruct o; cbn [window_kids] in Hin
      | Hin : In _ (qattrs_kids ?o) |- _ => destruct o; cbn [qattrs_kids] in Hin
      | Hin : In _ (groupby_kids ?o) |- _ => destruct o; cbn [groupby_kids] in Hin
      | Hin : In _ (group_kids ?o) |- _ => destruct o; cbn [group_kids] in Hin
      | Hin : In _ (map _ ?l) |- _ =>
          induction l as [|a l IHl]; cbn [map] in Hin;
          [destruct Hin|destruct a as [ov od on]; cbn [o_value] in Hin; destruct Hin as [<-|Hin]; [apply IH|apply IHl, Hin]]
      | Hin : In _ (concat (map _ ?l)) |- _ =>
          induction l as [|a l IHl]; cbn [map concat] in Hin;
          [destruct Hin
          |apply in_app_or in Hin; destruct Hin as [Hin|Hin];
           [clear IHl; destruct a; cbn [fst snd] in Hin|apply IHl, Hin]]
      | Hin : In _ (concat ?l) |- _ =>
          induction l as [|a l IHl]; cbn [concat] in Hin;
          [destruct Hin
          |apply in_app_or in Hin; destruct Hin as [Hin|Hin]; [clear IHl|apply IHl, Hin]]
      | Hin : In _ ?l |- _ =>
          let q := fresh "q" in let qs := fresh "qs" in let IHq := fresh "IHq" in
          induction l as [|q qs IHq]; [destruct Hin|destruct Hin as [<-|Hin]; [apply IH|apply IHq, Hin]]
      end.
Qed.

(** * Maps that rebuild an object *)
Definition blank (x : node) : result node := Ok NNone.

(** What is needed of a map [M] over something with the nodes [K]. *)
Record trav {X : Type} (M : (node -> result node) -> X -> result X) (K : X -> list node) : Prop := {
  t_parts f x y : M f x = Ok y -> Forall2 (fun a b => f a = Ok b) (K x) (K y);
  t_shell f x y s : M f x = Ok y -> M blank x = Ok s -> M blank y = Ok s;
  t_total f x : (forall a, In a (K x) -> exists b, f a = Ok b) -> exists y, M f x = Ok y;
  t_length x y s : M blank x = Ok s -> M blank y = Ok s -> length (K x) = length (K y);
  t_same x y s : M blank x = Ok s -> M blank y = Ok s -> K x = K y -> x = y }.
Arguments t_parts {X M K}. Arguments t_shell {X M K}. Arguments t_total {X M K}.
Arguments t_length {X M K}. Arguments t_same {X M K}.

Lemma bind_inv {A B} (r : result A) (k : A -> result B) y :
  (let* a := r in k a) = Ok y -> exists a, r = Ok a /\ k a = Ok y.
Proof. destruct r; cbn; intro H; [eauto|discriminate]. Qed.
Ltac unbind :=
  repeat match goal with
    | H : (let* _ := _ in _) = Ok _ |- _ =>
        let a := fresh "a" in let E := fresh "E" in
        apply bind_inv in H; destruct H as [a [E H]]
    | H : Ok _ = Ok _ |- _ => discriminate H || (injection H; clear H; intros; subst)
    end.

Lemma app_split {A} (a b c d : list A) : length a = length c -> a ++ b = c ++ d -> a = c /\ b = d.
Proof.
  revert c. induction a as [|x a IH]; intros [|y c] L E; try discriminate L.
  - now split.
  - injection E as -> E. injection L as L. destruct (IH c L E) as [-> ->]. now split.
Qed.

Lemma trav_one : trav (fun f => f) (fun x => [x]).
Proof.
  constructor; intros.
  - now repeat constructor.
  - exact H0.
  - apply H. now left.
  - reflexivity.
  - congruence.
Qed.

Lemma trav_list {X M K} (T : @trav X M K) :
  trav (fun f => each (M f)) (fun l => concat (map K l)).
Proof.
  constructor.
  - intros f l. induction l as [|x l IH]; cbn [each map concat]; intros y H; unbind; [constructor|].
    apply Forall2_app; [eapply (t_parts T); eassumption|now apply IH].
  - intros f l. induction l as [|x l IH]; cbn [each map concat]; intros y s H H1; unbind; [reflexivity|].
    cbn [each]. erewrite (t_shell T) by eassumption. cbn. erewrite IH by eassumption. reflexivity.
  - intros f l. induction l as [|x l IH]; cbn [each map concat]; intro H; [now exists []|].
    destruct (t_total T f x) as [y ->]; [intros a Ha; apply H, in_or_app; now left|].
    destruct IH as [l' ->]; [intros a Ha; apply H, in_or_app; now right|]. now exists (y :: l').
  - intros l. induction l as [|x l IH]; intros [|y r] s; cbn [each map concat]; intros H1 H2; unbind;
      try discriminate.
    + reflexivity.
    + rewrite !app_length. f_equal; [eapply (t_length T); eassumption|eapply IH; eassumption].
  - intros l. induction l as [|x l IH]; intros [|y r] s; cbn [each map concat]; intros H1 H2 E; unbind;
      try discriminate.
    + reflexivity.
    + apply app_split in E; [destruct E as [Ex Er]|eapply (t_length T); eassumption].
      f_equal; [eapply (t_same T); eassumption|eapply IH; eassumption].
Qed.
Lemma trav_nodes : trav (fun f => each f) (fun l => l).
Proof.
  pose proof (trav_list trav_one) as T.
  assert (E : forall l : list node, concat (map (fun x => [x]) l) = l).
  { induction l as [|a l IH]; cbn; [reflexivity|now rewrite IH]. }
  constructor; intros.
  - rewrite <- (E x), <- (E y). now apply (t_parts T).
  - eapply (t_shell T); eassumption.
  - apply (t_total T). now rewrite E.
  - rewrite <- (E x), <- (E y). eapply (t_length T); eassumption.
  - eapply (t_same T); try eassumption. now rewrite !E.
Qed.

Ltac use_parts :=
  repeat first
    [ assumption
    | apply Forall2_app
    | apply Forall2_cons
    | apply Forall2_nil ].

Lemma trav_opt {X M K} (T : @trav X M K) :
  trav (fun f => opt_map (M f)) (fun o => match o with None => [] | Some x => K x end).
Proof.
  constructor.
  - intros f [x|] y H; cbn [opt_map] in H; unbind; [|constructor]. eapply (t_parts T); eassumption.
  - intros f [x|] y s H H1; cbn [opt_map] in *; unbind; [|reflexivity]. cbn [opt_map].
    erewrite (t_shell T) by eassumption. reflexivity.
  - intros f [x|] H; cbn [opt_map]; [|now eexists].
    destruct (t_total T f x H) as [y ->]. now eexists.
  - intros [x|] [y|] s H H1; cbn [opt_map] in *; unbind; try discriminate; [|reflexivity].
    eapply (t_length T); eassumption.
  - intros [x|] [y|] s H H1 E; cbn [opt_map] in *; unbind; try discriminate; [|reflexivity].
    f_equal. eapply (t_same T); eassumption.
Qed.

Lemma trav_order : trav (fun f => order_map f) (fun o => [o_value o]).
Proof.
  constructor.
  - intros f [x d n] y H; cbn [order_map] in H; unbind. now repeat constructor.
  - intros f [x d n] y s H H1; unfold blank in *; cbn [order_map] in *; unbind. reflexivity.
  - intros f [x d n] H; cbn [order_map]. destruct (H x) as [y ->]; [now left|]. now eexists.
  - reflexivity.
  - intros [x d n] [y d' n'] s H H1 E; unfold blank in *; cbn [order_map o_value] in *; unbind. 
    injection E as ->. reflexivity.
Qed.
Lemma orders_kids (l : list (order node)) : concat (map (fun o => [o_value o]) l) = map o_value l.
Proof. induction l as [|a l IH]; cbn; [reflexivity|now rewrite IH]. Qed.
Lemma trav_ext {X} {M : (node -> result node) -> X -> result X} {K K' : X -> list node}
  (T : trav M K) : (forall x, K x = K' x) -> trav M K'.
Proof.
  intro E. constructor; intros.
  - rewrite <- !E. now apply (t_parts T).
  - eapply (t_shell T); eassumption.
  - apply (t_total T). now rewrite E.
  - rewrite <- !E. eapply (t_length T); eassumption.
  - eapply (t_same T); try eassumption. now rewrite !E.
Qed.
Lemma trav_orders : trav (fun f => each (order_map f)) (fun l => map o_value l).
Proof. exact (trav_ext (trav_list trav_order) orders_kids). Qed.
Lemma trav_opt_node : trav (fun f => opt_map f) opt_kids.
Proof. apply (trav_ext (trav_opt trav_one)). now intros []. Qed.

Lemma trav_bound : trav (fun f => bound_map f) bound_kids.
Proof.
  constructor.
  - intros f [d x|d|] y H; cbn [bound_map] in H; unbind; now repeat constructor.
  - intros f [d x|d|] y s H H1; unfold blank in *; cbn [bound_map] in *; unbind; reflexivity.
  - intros f [d x|d|] H; cbn [bound_map]; [destruct (H x) as [y ->]; [now left|]|..]; now eexists.
  - intros [d x|d|] [d' y|d'|] s H H1; unfold blank in *; cbn [bound_map] in *; unbind; congruence || reflexivity.
  - intros [d x|d|] [d' y|d'|] s H H1 E; unfold blank in *; cbn [bound_map bound_kids] in *; unbind; try congruence.
Qed.

(** * The facts used for one part of an object *)
Ltac each_trav tac := fail.
Ltac know_parts :=
  repeat match goal with
    | E : ?m = Ok ?y |- _ =>
        let t T := (pose proof (t_parts T _ _ _ E)) in each_trav t; revert E
    end; intros.
Ltac all_parts :=
  know_parts; cbv beta in *;
  repeat first
    [ assumption | apply Forall2_app | apply Forall2_cons | apply Forall2_nil ].
Ltac all_shells :=
  repeat match goal with H : blank _ = Ok _ |- _ => injection H as <- end;
  repeat match goal with
    | |- context [let* _ := blank ?x in _] => change (blank x) with (Ok NNone); cbn [bind]
    | |- (let* _ := _ in _) = _ =>
        let t T := (erewrite (t_shell T) by eassumption) in each_trav t; cbn [bind]
    end.
Ltac all_total H :=
  repeat match goal with
    | f : node -> result node |- exists y, (let* _ := ?f ?p in _) = Ok y =>
        let z := fresh "z" in
        destruct (H p) as [z ->]; [repeat rewrite in_app_iff; cbn [In]; auto 20|]; cbn [bind]
    | |- exists y, (let* _ := _ in _) = Ok y =>
        let t T := (let z := fresh "z" in
                    edestruct (t_total T) as [z ->];
                    [intros; apply H; repeat rewrite in_app_iff; cbn [In]; tauto|]) in
        each_trav t; cbn [bind]
    end; eexists; reflexivity.
Ltac know_lengths :=
  repeat match goal with
    | H1 : _ = Ok ?s, H2 : _ = Ok ?s |- _ =>
        let t T := (pose proof (t_length T _ _ _ H1 H2)) in each_trav t; revert H1
    end; intros; cbv beta in *.
Ltac all_lengths := know_lengths; repeat rewrite app_length in *; cbn [length] in *; lia.
Ltac split_parts E :=
  know_lengths;
  repeat match type of E with
    | _ ++ _ = _ ++ _ =>
        let E1 := fresh "E" in
        apply app_split in E; [destruct E as [E1 E]|repeat rewrite app_length in *; cbn [length] in *; lia]
    | _ :: _ = _ :: _ => let E1 := fresh "E" in injection E as E1 E
    end.
Ltac all_same E :=
  split_parts E;
  repeat match goal with
    | H1 : _ = Ok ?s, H2 : _ = Ok ?s |- _ =>
        let t T := (pose proof (t_same T _ _ _ H1 H2 ltac:(eassumption))) in each_trav t; clear H1
    end; subst; reflexivity.

Ltac each_trav tac ::= first
  [ tac trav_one | tac trav_nodes | tac trav_orders | tac trav_opt_node | tac trav_bound ].

Lemma trav_window : trav (fun f => window_map f) window_kids.
Proof.
  constructor.
  - intros f [p ob ps fr s e] y H; cbn [window_map] in H; unbind; cbn [window_kids]. all_parts.
  - intros f [p ob ps fr s e] y z H H1; cbn [window_map] in *; unbind; cbn [window_map].
    all_shells. reflexivity.
  - intros f [p ob ps fr s e] H; cbn [window_map window_kids] in *. all_total H.
  - intros [p ob ps fr s e] [p' ob' ps' fr' s' e'] z H H1; cbn [window_map window_kids] in *; unbind.
    all_lengths.
  - intros [p ob ps fr s e] [p' ob' ps' fr' s' e'] z H H1 E; cbn [window_map window_kids] in *; unbind.
    all_same E.
Qed.
Lemma trav_opt_window :
  trav (fun f => opt_map (window_map f)) (fun wi => match wi with None => [] | Some w => window_kids w end).
Proof. exact (trav_opt trav_window). Qed.
Ltac each_trav tac ::= first
  [ tac trav_one | tac trav_nodes | tac trav_orders | tac trav_opt_node | tac trav_bound
  | tac trav_window | tac trav_opt_window ].

Lemma trav_fopts : trav (fun f => fopts_map f) fopts_kids.
Proof.
  constructor.
  - intros f [ob fi wi ig] y H; cbn [fopts_map] in H; unbind; cbn [fopts_kids]. all_parts.
  - intros f [ob fi wi ig] y z H H1; cbn [fopts_map] in *; unbind; cbn [fopts_map].
    all_shells. reflexivity.
  - intros f [ob fi wi ig] H; cbn [fopts_map fopts_kids] in *. all_total H.
  - intros [ob fi wi ig] [ob' fi' wi' ig'] z H H1; cbn [fopts_map fopts_kids] in *; unbind.
    all_lengths.
  - intros [ob fi wi ig] [ob' fi' wi' ig'] z H H1 E; cbn [fopts_map fopts_kids] in *; unbind.
    all_same E.
Qed.
Lemma trav_qattrs : trav (fun f => qattrs_map f) qattrs_kids.
Proof.
  constructor.
  - intros f [wi ob off lim] y H; cbn [qattrs_map] in H; unbind; cbn [qattrs_kids]. all_parts.
  - intros f [wi ob off lim] y z H H1; cbn [qattrs_map] in *; unbind; cbn [qattrs_map].
    all_shells. reflexivity.
  - intros f [wi ob off lim] H; cbn [qattrs_map qattrs_kids] in *. all_total H.
  - intros [wi ob off lim] [wi' ob' off' lim'] z H H1; cbn [qattrs_map qattrs_kids] in *; unbind.
    all_lengths.
  - intros [wi ob off lim] [wi' ob' off' lim'] z H H1 E; cbn [qattrs_map qattrs_kids] in *; unbind.
    all_same E.
Qed.
Lemma trav_nodess : trav (fun f => each (each f)) (@concat node).
Proof.
  apply (trav_ext (trav_list trav_nodes)). intro ll. now rewrite map_id.
Qed.
Ltac each_trav tac ::= first
  [ tac trav_one | tac trav_nodes | tac trav_orders | tac trav_opt_node | tac trav_bound
  | tac trav_window | tac trav_opt_window | tac trav_fopts | tac trav_qattrs | tac trav_nodess ].
Lemma trav_group : trav (fun f => group_map f) group_kids.
Proof.
  constructor.
  - intros f [l|ll|l|l] y H; cbn [group_map] in H; unbind; cbn [group_kids]; all_parts.
  - intros f [l|ll|l|l] y z H H1; cbn [group_map] in *; unbind; cbn [group_map];
    all_shells; reflexivity.
  - intros f [l|ll|l|l] H; cbn [group_map group_kids] in *; all_total H.
  - intros [l|ll|l|l] [l'|ll'|l'|l'] z H H1; cbn [group_map group_kids] in *; unbind; all_lengths.
  - intros [l|ll|l|l] [l'|ll'|l'|l'] z H H1 E; cbn [group_map group_kids] in *; unbind; all_same E.
Qed.
Lemma trav_groups : trav (fun f => each (group_map f)) (fun gs => concat (map group_kids gs)).
Proof. exact (trav_list trav_group). Qed.
Ltac each_trav tac ::= first
  [ tac trav_one | tac trav_nodes | tac trav_orders | tac trav_opt_node | tac trav_bound
  | tac trav_window | tac trav_opt_window | tac trav_fopts | tac trav_qattrs | tac trav_nodess
  | tac trav_group | tac trav_groups ].
Lemma trav_groupby : trav (fun f => groupby_map f) groupby_kids.
Proof.
  constructor.
  - intros f [gs d] y H; cbn [groupby_map] in H; unbind; cbn [groupby_kids]; all_parts.
  - intros f [gs d] y z H H1; cbn [groupby_map] in *; unbind; cbn [groupby_map];
    all_shells; reflexivity.
  - intros f [gs d] H; cbn [groupby_map groupby_kids] in *; all_total H.
  - intros [gs d] [gs' d'] z H H1; cbn [groupby_map groupby_kids] in *; unbind; all_lengths.
  - intros [gs d] [gs' d'] z H H1 E; cbn [groupby_map groupby_kids] in *; unbind; all_same E.
Qed.
Lemma trav_opt_groupby :
  trav (fun f => opt_map (groupby_map f)) (fun gb => match gb with None => [] | Some g => groupby_kids g end).
Proof. exact (trav_opt trav_groupby). Qed.
Lemma trav_jcrit : trav (fun f => jcrit_map f) jcrit_kids.
Proof.
  constructor.
  - intros f [cols|x] y H; cbn [jcrit_map] in H; unbind; cbn [jcrit_kids]; all_parts.
  - intros f [cols|x] y z H H1; cbn [jcrit_map] in *; unbind; cbn [jcrit_map];
    all_shells; reflexivity.
  - intros f [cols|x] H; cbn [jcrit_map jcrit_kids] in *; all_total H.
  - intros [cols|x] [cols'|x'] z H H1; cbn [jcrit_map jcrit_kids] in *; unbind; all_lengths.
  - intros [cols|x] [cols'|x'] z H H1 E; cbn [jcrit_map jcrit_kids] in *; unbind; all_same E.
Qed.
Lemma trav_opt_jcrit :
  trav (fun f => opt_map (jcrit_map f)) (fun c => match c with None => [] | Some x => jcrit_kids x end).
Proof. exact (trav_opt trav_jcrit). Qed.
Lemma trav_tref : trav (fun f => tref_map f) tref_kids.
Proof.
  constructor.
  - intros f [|s|x] y H; cbn [tref_map] in H; unbind; cbn [tref_kids]; all_parts.
  - intros f [|s|x] y z H H1; cbn [tref_map] in *; unbind; cbn [tref_map];
    all_shells; reflexivity.
  - intros f [|s|x] H; cbn [tref_map tref_kids] in *; all_total H.
  - intros [|s|x] [|s'|x'] z H H1; cbn [tref_map tref_kids] in *; unbind; all_lengths.
  - intros [|s|x] [|s'|x'] z H H1 E; cbn [tref_map tref_kids] in *; unbind; all_same E.
Qed.
Lemma trav_branch : trav (fun f => branch_map f) (fun cv => [fst cv; snd cv]).
Proof.
  constructor.
  - intros f [c x] y H; cbn [branch_map] in H; unbind; cbn [fst snd]; all_parts.
  - intros f [c x] y z H H1; cbn [branch_map] in *; unbind; cbn [branch_map];
    all_shells; reflexivity.
  - intros f [c x] H; cbn [branch_map fst snd] in *; all_total H.
  - intros [c x] [c' x'] z H H1; cbn [branch_map fst snd] in *; unbind; all_lengths.
  - intros [c x] [c' x'] z H H1 E; cbn [branch_map fst snd] in *; unbind; all_same E.
Qed.
Lemma trav_branches :
  trav (fun f => each (branch_map f)) (fun bs => concat (map (fun cv => [fst cv; snd cv]) bs)).
Proof. exact (trav_list trav_branch). Qed.
Lemma trav_named : trav (fun f => named_map f) (fun nw : string * window node => window_kids (snd nw)).
Proof.
  constructor.
  - intros f [n w] y H; cbn [named_map] in H; unbind; cbn [fst snd]; all_parts.
  - intros f [n w] y z H H1; cbn [named_map] in *; unbind; cbn [named_map];
    all_shells; reflexivity.
  - intros f [n w] H; cbn [named_map fst snd] in *; all_total H.
  - intros [n w] [n' w'] z H H1; cbn [named_map fst snd] in *; unbind; all_lengths.
  - intros [n w] [n' w'] z H H1 E; cbn [named_map fst snd] in *; unbind; all_same E.
Qed.
Lemma trav_nameds :
  trav (fun f => each (named_map f))
       (fun ws : list (string * window node) => concat (map (fun nw => window_kids (snd nw)) ws)).
Proof. exact (trav_list trav_named). Qed.
Ltac each_trav tac ::= first
  [ tac trav_one | tac trav_nodes | tac trav_orders | tac trav_opt_node | tac trav_bound
  | tac trav_window | tac trav_opt_window | tac trav_fopts | tac trav_qattrs | tac trav_nodess
  | tac trav_group | tac trav_groups | tac trav_groupby | tac trav_opt_groupby | tac trav_jcrit
  | tac trav_opt_jcrit | tac trav_tref | tac trav_branches | tac trav_nameds ].

(** The class of an object. *)
Definition class (e : node) : nat :=
  match e with
  | NNone => 0 | NLit _ _ => 1 | NField _ _ _ => 2 | NAliased _ _ => 3 | NStar _ _ => 4
  | NAliasedStar _ _ => 5 | NVar _ => 6 | NLambda _ _ => 7 | NUn _ _ => 8 | NBin _ _ _ => 9
  | NBetween _ _ _ => 10 | NArray _ => 11 | NInQuery _ _ => 12 | NInList _ _ => 13 | NLike _ _ _ => 14
  | NTypeCtor _ _ => 15 | NRow _ => 16 | NInterval _ _ _ => 17 | NCast _ _ _ => 18
  | NSubscript _ _ => 19 | NCase _ _ _ => 20 | NFunc _ _ _ => 21 | NDateTime _ _ => 22
  | NListAgg _ _ _ _ => 23 | NNormalize _ _ => 24 | NSelect _ _ _ _ _ _ _ _ => 25
  | NSetQuery _ _ _ _ _ => 26 | NTableQuery _ _ => 27 | NValues _ _ => 28 | NTable _ _ _ => 29
  | NAliasedRel _ _ _ => 30 | NJoin _ _ _ _ _ => 31 | NUnnest _ _ => 32 | NLateral _ => 33
  | NSample _ _ _ => 34
  end.
Lemma node_class f e y : node_each f e = Ok y -> class y = class e.
Proof. destruct e; cbn [node_each]; intro H; unbind; reflexivity. Qed.

Lemma trav_node : trav node_each kids.
Proof.
  constructor.
  - intros f x y H; destruct x; cbn [node_each] in H; unbind; cbn [kids]; all_parts.
  - intros f x y z H H1; destruct x; cbn [node_each] in *; unbind; cbn [node_each];
      all_shells; reflexivity.
  - intros f x H; destruct x; cbn [node_each kids] in *; all_total H.
  - intros x y z H H1. pose proof (node_class _ _ _ H) as C. rewrite (node_class _ _ _ H1) in C.
    destruct x, y; try discriminate C; clear C; cbn [node_each kids] in *; unbind; all_lengths.
  - intros x y z H H1 E. pose proof (node_class _ _ _ H) as C. rewrite (node_class _ _ _ H1) in C.
    apply (fun E => conj E I) in E.
    destruct x, y; try discriminate C; clear C; cbn [node_each kids] in *; unbind; destruct E as [E _];
      all_same E.
Qed.
