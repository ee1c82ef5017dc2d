(** A tree determines the object it was made from. *)
From Coq Require Import String List ZArith Bool Lia.
From Verif Require Import PyStr StrFacts Types Inference Functions Ast Walk NodeFacts Tokens Equals Cli Tree ShowFacts
  PropertiesResolve PropertiesEquals.
Import ListNotations.
Open Scope nat_scope.
Open Scope string_scope.
Open Scope list_scope.

(** * Attributes *)
Lemma distinct_NoDup l : distinct_names l = true -> NoDup l.
Proof.
  induction l as [|x l IH]; cbn [distinct_names]; intros H; [constructor|].
  apply andb_true_iff in H as [H1 H2]. constructor; [|now apply IH]. apply negb_true_iff in H1.
  intros Hin. clear IH H2. revert H1 Hin. induction l as [|y l IHl]; intros H1 [].
  - subst y. cbn in H1. rewrite String.eqb_refl in H1. discriminate H1.
  - cbn in H1. apply orb_false_iff in H1 as [_ H1]. now apply IHl.
Qed.
Lemma entries_keys l t : In t (entries l) -> exists k v, t = Tree k [v] /\ In k (map fst l).
Proof.
  induction l as [|[k [v|]] l IH]; cbn [entries map fst]; intros H; [now elim H| |].
  - destruct H as [<-|H]; [exists k, v; split; [reflexivity|now left]|]. destruct (IH H) as (k' & v' & -> & I). exists k', v'. split; [reflexivity|now right].
  - destruct (IH H) as (k' & v' & -> & I). exists k', v'. split; [reflexivity|now right].
Qed.
Lemma entries_inj l : forall l', NoDup (map fst l) -> map fst l = map fst l' -> entries l = entries l' -> l = l'.
Proof.
  induction l as [|[k v] l IH]; intros [|[k' v'] l'] N E H; cbn [map fst] in *; try discriminate E; [reflexivity|].
  injection E as <- E. inversion N as [|? ? N1 N2]; subst. destruct v as [v|], v' as [v'|]; cbn [entries] in H.
  - injection H as <- H. now rewrite (IH l' N2 E H).
  - exfalso. assert (I : In (Tree k [v]) (entries l')) by (rewrite <- H; now left).
    apply entries_keys in I as (k1 & v1 & T & I). injection T as <- _. apply N1. now rewrite E.
  - exfalso. assert (I : In (Tree k [v']) (entries l)) by (rewrite H; now left).
    apply entries_keys in I as (k1 & v1 & T & I). injection T as <- _. now apply N1.
  - now rewrite (IH l' N2 E H).
Qed.
Lemma object_inj c c' l l' : distinct_names (map fst l) = true -> map fst l = map fst l' ->
  object c l = object c' l' -> l = l'.
Proof. intros N E H. injection H as _ H. apply entries_inj; auto using distinct_NoDup. Qed.
Lemma object_class c c' l l' : object c l = object c' l' -> c = c'.
Proof. now intros [= H _]. Qed.

(** * Parts *)
Definition inj_on {A B} (g : A -> B) (l l' : list A) : Prop := forall x y, In x l -> In y l' -> g x = g y -> x = y.
Record faith {A} (f : A -> tree) (o : A -> option tree) (l l' : list A) : Prop := mkFaith {
  fa_l : forall x, In x l -> o x = Some (f x);
  fa_r : forall x, In x l' -> o x = Some (f x);
  fa_inj : inj_on f l l' }.
Lemma faith_incl {A} (f : A -> tree) o l l' m m' : faith f o l l' -> incl m l -> incl m' l' -> faith f o m m'.
Proof. intros [L R J] I I'. constructor; [auto|auto|]. intros x y Hx Hy. apply J; auto. Qed.
Lemma faith_one {A} (f : A -> tree) o x y : faith f o [x] [y] -> o x = o y -> x = y.
Proof.
  intros [L R J] E. rewrite L, R in E by now left. injection E as E. apply J; [now left|now left|exact E].
Qed.
Lemma faith_opt {A} (f : A -> tree) o x y : faith f o (opt_kids x) (opt_kids y) -> t_opt o x = t_opt o y -> x = y.
Proof.
  destruct x as [x|], y as [y|]; cbn [opt_kids t_opt]; intros F E; [|exfalso|exfalso|reflexivity].
  - f_equal. exact (faith_one f o x y F E).
  - rewrite (fa_l _ _ _ _ F) in E by now left. discriminate E.
  - rewrite (fa_r _ _ _ _ F) in E by now left. discriminate E.
Qed.
Lemma text_inj s s' : t_text s = t_text s' -> s = s'.
Proof. now intros [= H]. Qed.
Lemma int_inj z z' : t_int z = t_int z' -> z = z'.
Proof. intros [= H]. now apply str_of_Z_inj. Qed.
Lemma opt_text_inj s s' : t_opt t_text s = t_opt t_text s' -> s = s'.
Proof. destruct s, s'; cbn [t_opt]; intros E; try discriminate E; [apply text_inj in E; now subst|reflexivity]. Qed.
Lemma opt_int_inj s s' : t_opt t_int s = t_opt t_int s' -> s = s'.
Proof. destruct s, s'; cbn [t_opt]; intros E; try discriminate E; [apply int_inj in E; now subst|reflexivity]. Qed.
Lemma bool_inj b b' : t_bool b = t_bool b' -> b = b'.
Proof. destruct b, b'; intros E; try discriminate E; reflexivity. Qed.
Lemma flag_inj b b' n : t_flag b n = t_flag b' n -> b = b'.
Proof. destruct b, b'; intros E; try discriminate E; reflexivity. Qed.
Lemma map_inj_on {A B} (g : A -> B) l : forall l', inj_on g l l' -> map g l = map g l' -> l = l'.
Proof.
  induction l as [|x l IH]; intros [|y l'] J E; cbn [map] in E; try discriminate E; [reflexivity|].
  injection E as E1 E2. rewrite (J x y (or_introl eq_refl) (or_introl eq_refl) E1), (IH l'); [reflexivity| |exact E2].
  intros u v Hu Hv. apply J; now right.
Qed.
Lemma t_list_map {A} (g : A -> tree) l l' : t_list g l = t_list g l' -> map g l = map g l'.
Proof.
  unfold t_list. destruct l, l'; intros E; try discriminate E; [reflexivity|]. exact (f_equal (fun t => match t with Some t => children_of t | None => [] end) E).
Qed.
Lemma t_list_inj {A} (g : A -> tree) l l' : inj_on g l l' -> t_list g l = t_list g l' -> l = l'.
Proof. intros J E. exact (map_inj_on g l l' J (t_list_map g l l' E)). Qed.
Lemma names_inj l l' : t_list Leaf l = t_list Leaf l' -> l = l'.
Proof. apply t_list_inj. now intros x y _ _ [= E]. Qed.
Lemma incl_concat {A B} (ks : B -> list A) x l : In x l -> incl (ks x) (concat (map ks l)).
Proof. intros I y Hy. apply in_concat. exists (ks x). split; [now apply in_map|exact Hy]. Qed.
Lemma parts_list {A B} (f : A -> tree) o (g : B -> tree) (ks : B -> list A) l l' :
  (forall x y, faith f o (ks x) (ks y) -> g x = g y -> x = y) ->
  faith f o (concat (map ks l)) (concat (map ks l')) -> t_list g l = t_list g l' -> l = l'.
Proof.
  intros H F. apply t_list_inj. intros x y Hx Hy. apply H. eapply faith_incl; [exact F| |]; now apply incl_concat.
Qed.
Lemma next_field {B} (k k' : string) (a a' : B) l l' : (k, a) :: l = (k', a') :: l' -> a = a' /\ l = l'.
Proof. now intros [= _ -> ->]. Qed.
Lemma some_inj {A} (a b : A) : Some a = Some b -> a = b.
Proof. now intros [= ->]. Qed.
Ltac next E H := apply next_field in E as [H E].
Ltac keys := first [reflexivity | vm_compute; reflexivity].
Ltac fields E := apply object_inj in E; [|keys|keys].
Ltac inside := let x := fresh in intros x; repeat (cbn [In app opt_kids fopts_kids] || rewrite in_app_iff); tauto.

Lemma order_inj {A} (f : A -> tree) o x y : faith f o [o_value x] [o_value y] -> t_order o x = t_order o y -> x = y.
Proof.
  destruct x as [v d n], y as [v' d' n']; cbn [o_value t_order]; intros F E. fields E.
  next E E1; next E E2; next E E3. apply (faith_one f o) in E1; [|exact F]. apply flag_inj in E2, E3. now subst.
Qed.
Lemma orders_inj {A} (f : A -> tree) o l l' : faith f o (map o_value l) (map o_value l') ->
  t_list (t_order o) l = t_list (t_order o) l' -> l = l'.
Proof.
  intros F. apply t_list_inj. intros x y Hx Hy. apply (order_inj f). eapply faith_incl; [exact F| |].
  - intros z [<-|[]]. now apply in_map.
  - intros z [<-|[]]. now apply in_map.
Qed.
Lemma dir_inj d d' : t_dir d = t_dir d' -> d = d'.
Proof. destruct d, d'; intros E; try discriminate E; reflexivity. Qed.
Lemma bound_inj {A} (f : A -> tree) o x y : faith f o (bound_kids x) (bound_kids y) -> t_bound o x = t_bound o y -> x = y.
Proof.
  destruct x as [d v|d|], y as [d' v'|d'|]; cbn [bound_kids t_bound]; intros F E; try (apply object_class in E; discriminate E).
  - fields E. next E E1; next E E2. apply dir_inj in E1. apply (faith_one f o) in E2; [|exact F]. now subst.
  - fields E. next E E1. apply dir_inj in E1. now subst.
  - reflexivity.
Qed.
Lemma frame_inj t t' : t_frame t = t_frame t' -> t = t'.
Proof. destruct t, t'; intros E; try discriminate E; reflexivity. Qed.
Lemma window_fields {A} (f : A -> tree) o w w' : faith f o (window_kids w) (window_kids w') ->
  children_of (t_window f o w) = children_of (t_window f o w') -> w = w'.
Proof.
  destruct w as [p ob ps fr s e], w' as [p' ob' ps' fr' s' e']; cbn [window_kids t_window]; intros F E.
  unfold object in E; cbn [children_of] in E. apply entries_inj in E; [|apply distinct_NoDup; keys|keys].
  next E E1; next E E2; next E E3; next E E4; next E E5; next E E6.
  apply opt_text_inj in E1. apply (orders_inj f) in E2; [|eapply faith_incl; [exact F|inside|inside]].
  apply t_list_inj in E3; [|eapply fa_inj, faith_incl; [exact F|inside|inside]]. apply frame_inj in E4. apply some_inj in E5, E6.
  apply (bound_inj f) in E5; [|eapply faith_incl; [exact F|inside|inside]].
  apply (bound_inj f) in E6; [|eapply faith_incl; [exact F|inside|inside]]. now subst.
Qed.
Lemma window_inj {A} (f : A -> tree) o w w' : faith f o (window_kids w) (window_kids w') ->
  t_window f o w = t_window f o w' -> w = w'.
Proof. intros F E. apply (window_fields f o w w' F). now rewrite E. Qed.
Definition window_opt_kids {A} (w : option (window A)) : list A := match w with None => [] | Some w => window_kids w end.
Lemma fopts_inj {A} (f : A -> tree) o x y r r' : faith f o (fopts_kids x) (fopts_kids y) ->
  t_fopts f o x ++ r = t_fopts f o y ++ r' -> x = y /\ r = r'.
Proof.
  destruct x as [ob fi wi ig], y as [ob' fi' wi' ig']; cbn [fopts_kids t_fopts app]; intros F E.
  next E E1; next E E2; next E E3; next E E4; rename E into E5.
  apply (orders_inj f) in E1; [|eapply faith_incl; [exact F|inside|inside]].
  apply (faith_opt f) in E2; [|eapply faith_incl; [exact F|inside|inside]].
  assert (W : wi = wi').
  { destruct wi as [w|], wi' as [w'|]; cbn [t_opt] in E3; try discriminate E3; [|reflexivity].
    apply some_inj in E3. f_equal. apply (window_inj f o); [eapply faith_incl; [exact F|inside|inside]|exact E3]. }
  apply flag_inj in E4. subst. auto.
Qed.
Lemma qattrs_inj {A} (f : A -> tree) o x y r r' : faith f o (qattrs_kids x) (qattrs_kids y) ->
  t_qattrs f o x ++ r = t_qattrs f o y ++ r' -> x = y /\ r = r'.
Proof.
  destruct x as [wi ob off lim], y as [wi' ob' off' lim']; cbn [qattrs_kids t_qattrs app]; intros F E.
  next E E1; next E E2; next E E3; next E E4; rename E into E5. apply opt_int_inj in E1, E2.
  apply (orders_inj f) in E3; [|eapply faith_incl; [exact F|inside|inside]].
  apply t_list_inj in E4; [|eapply fa_inj, faith_incl; [exact F|inside|inside]]. subst. auto.
Qed.
Lemma group_inj {A} (f : A -> tree) o x y : faith f o (group_kids x) (group_kids y) -> t_group f x = t_group f y -> x = y.
Proof.
  destruct x as [l|l|l|l], y as [l'|l'|l'|l']; cbn [group_kids t_group]; intros F E;
    try (apply object_class in E; discriminate E); fields E; next E E1.
  1, 3, 4: f_equal; revert E1; apply t_list_inj, (fa_inj _ _ _ _ F).
  f_equal. revert E1. apply (parts_list f o _ (fun x => x)).
  - intros x y F' E'. fields E'. next E' E1. revert E1. apply t_list_inj, (fa_inj _ _ _ _ F').
  - now rewrite !map_id.
Qed.
Lemma quantifier_inj b b' : t_quantifier b = t_quantifier b' -> b = b'.
Proof. apply flag_inj. Qed.
Lemma groupby_inj {A} (f : A -> tree) o x y : faith f o (groupby_kids x) (groupby_kids y) ->
  t_groupby f x = t_groupby f y -> x = y.
Proof.
  destruct x as [gs d], y as [gs' d']; cbn [groupby_kids t_groupby]; intros F E. fields E. next E E1; next E E2.
  apply quantifier_inj in E2. apply (parts_list f o _ group_kids) in E1; [now subst|apply group_inj|exact F].
Qed.
Lemma join_type_inj t t' : t_join_type t = t_join_type t' -> t = t'.
Proof. destruct t, t'; intros E; try discriminate E; reflexivity. Qed.
Lemma crit_inj {A} (f : A -> tree) o x y : faith f o (jcrit_kids x) (jcrit_kids y) -> t_crit o x = t_crit o y -> x = y.
Proof.
  destruct x as [l|c], y as [l'|c']; cbn [jcrit_kids t_crit]; intros F E; try (apply object_class in E; discriminate E);
    fields E; next E E1.
  - f_equal. now apply names_inj.
  - f_equal. now apply (faith_one f o).
Qed.
(** A text is not the tree of an object. *)
Definition branching (t : tree) : Prop := match t with Leaf _ => False | Tree _ _ => True end.
Lemma tref_inj {A} (f : A -> tree) o x y : (forall v, In v (tref_kids x ++ tref_kids y) -> branching (f v)) ->
  faith f o (tref_kids x) (tref_kids y) -> t_tref o x = t_tref o y -> x = y.
Proof.
  intros B F E. destruct x as [|s|v], y as [|s'|v']; cbn [tref_kids t_tref app] in *; try discriminate E; try reflexivity.
  - rewrite (fa_r _ _ _ _ F) in E by now left. discriminate E.
  - apply text_inj in E. now subst.
  - rewrite (fa_r _ _ _ _ F) in E by now left. specialize (B v' (or_introl eq_refl)). injection E as E. rewrite <- E in B. elim B.
  - rewrite (fa_l _ _ _ _ F) in E by now left. discriminate E.
  - rewrite (fa_l _ _ _ _ F) in E by now left. specialize (B v (or_introl eq_refl)). injection E as E. rewrite E in B. elim B.
  - f_equal. now apply (faith_one f o).
Qed.
Lemma branch_inj {A} (f : A -> tree) o x y : faith f o [fst x; snd x] [fst y; snd y] -> t_branch o x = t_branch o y -> x = y.
Proof.
  destruct x as [c v], y as [c' v']; cbn [fst snd t_branch]; intros F E. fields E. next E E1; next E E2.
  apply (faith_one f) in E1; [|eapply faith_incl; [exact F|inside|inside]].
  apply (faith_one f) in E2; [|eapply faith_incl; [exact F|inside|inside]]. now subst.
Qed.
Lemma named_inj {A} (f : A -> tree) o x y : faith f o (window_kids (snd x)) (window_kids (snd y)) ->
  t_named f o x = t_named f o y -> x = y.
Proof.
  destruct x as [n w], y as [n' w']; cbn [snd t_named]; intros F E. injection E as -> E.
  f_equal. now apply (window_fields f o).
Qed.
Lemma overflow_inj x y : t_opt (fun x => Some (t_overflow x)) x = t_opt (fun x => Some (t_overflow x)) y -> x = y.
Proof.
  destruct x as [[c s]|], y as [[c' s']|]; cbn [t_opt t_overflow]; intros E; try discriminate E; [|reflexivity].
  apply some_inj in E. fields E. next E E1. next E E2. apply text_inj in E1, E2. subst s'.
  destruct c, c'; try discriminate E1; reflexivity.
Qed.
Lemma form_inj x y : t_opt t_form x = t_opt t_form y -> x = y.
Proof. destruct x as [[]|], y as [[]|]; intros E; try discriminate E; reflexivity. Qed.
Lemma type_inj t u : t_type t = t_type u -> t = u.
Proof. intros [= E]. now apply type_sql_inj. Qed.
Lemma named_args_keys names : forall vals, map fst (t_named_args names vals) = names.
Proof. induction names as [|k r IH]; intros [|v s]; cbn [t_named_args map fst]; rewrite ?IH; reflexivity. Qed.
Lemma named_args_inj names : forall l l', length l <= length names -> length l' <= length names ->
  (forall v, In v (l ++ l') -> v <> None) -> t_named_args names l = t_named_args names l' -> l = l'.
Proof.
  induction names as [|k r IH]; intros [|v s] [|v' s'] L L' N E; cbn [length t_named_args] in *; try reflexivity; try lia.
  - next E E1. elim (N v'); [now left|congruence].
  - next E E1. elim (N v); [now left|congruence].
  - injection E as -> E. f_equal. apply IH; [lia|lia| |exact E]. intros v I. apply N. rewrite in_app_iff in *. cbn. tauto.
Qed.
Lemma args_keys {A} (f : A -> tree) o g l l' : map fst (t_args f o g l) = map fst (t_args f o g l').
Proof. unfold t_args. destruct (fn_variadic g); [reflexivity|]. now rewrite !named_args_keys. Qed.
Lemma args_inj {A} (f : A -> tree) o g l l' : arity_ok g (length l) = true -> arity_ok g (length l') = true ->
  faith f o l l' -> t_args f o g l = t_args f o g l' -> l = l'.
Proof.
  unfold t_args. intros L L' F E. destruct (fn_variadic g) eqn:V.
  - next E E1. revert E1. apply t_list_inj, (fa_inj _ _ _ _ F).
  - apply named_args_inj in E.
    + revert E. apply map_inj_on. intros x y Hx Hy E. rewrite (fa_l _ _ _ _ F), (fa_r _ _ _ _ F) in E by assumption. injection E as E. now apply (fa_inj _ _ _ _ F).
    + rewrite map_length. now apply fn_arity_attrs.
    + rewrite map_length. now apply fn_arity_attrs.
    + intros v. rewrite in_app_iff, !in_map_iff. intros [(x & <- & I)|(x & <- & I)];
        [rewrite (fa_l _ _ _ _ F) by assumption|rewrite (fa_r _ _ _ _ F) by assumption]; discriminate.
Qed.
Lemma fn_keys {A} (f : A -> tree) o g l : distinct_names (map fst (t_args f o g l)) = true
  /\ distinct_names ("data_type" :: map fst (t_args f o g l)) = true
  /\ distinct_names ("data_type" :: "orderby" :: "filter_" :: "window" :: "null_treatment" :: map fst (t_args f o g l)) = true.
Proof.
  unfold t_args. destruct g; cbn [fn_variadic fn_attrs]; rewrite ?named_args_keys; cbn [map fst]; repeat split; vm_compute; reflexivity.
Qed.
(** Names of classes *)
Lemma fn_class_inj f g : fn_class f = fn_class g -> f = g.
Proof.
  intros E. assert (H : forall f, find (fun h => String.eqb (fn_class h) (fn_class f)) all_fns = Some f) by (intros []; vm_compute; reflexivity).
  pose proof (H f) as Hf. rewrite E, H in Hf. now injection Hf.
Qed.
Definition other_classes : list cls :=
  [CNone; CLiteral; CField; CAliasedValue; CStar; CAliasedStar; CVariable; CLambda;
   CUn UPos; CUn UNeg; CUn UNot; CUn UIsNull;
   CBin BAdd; CBin BMinus; CBin BMul; CBin BDiv; CBin BMod; CBin BEq; CBin BNe; CBin BGt; CBin BGe; CBin BLt; CBin BLe;
   CBin BAnd; CBin BOr; CBin BDistinct; CBetween; CArray; CInQuery; CInList; CLike; CTypeCtor; CRow; CInterval;
   CCast false; CCast true; CSubscript; CCase; CSelect; CSet OpIntersect; CSet OpExcept; CSet OpUnion; CTableQuery;
   CValues; CTable; CAliasedRel; CJoin; CUnnest; CLateral; CSample].
Definition all_classes : list cls := other_classes ++ map CFn all_fns.
Lemma class_name_inj c d : class_name c = class_name d -> c = d.
Proof.
  intros E. assert (H : forall c, find (fun h => String.eqb (class_name h) (class_name c)) all_classes = Some c).
  { intros [| | | | | | | |[]|[]| | | | | | | | |[]| | |[]| |[]| | | | | | | |]; vm_compute; reflexivity. }
  pose proof (H c) as Hc. rewrite E, H in Hc. now injection Hc.
Qed.
