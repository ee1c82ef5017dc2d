(** Properties of column resolution (C28, C29). *)
From Coq Require Import String List ZArith Bool Lia.
From Verif Require Import PyStr Types Conversions Functions Ast Walk Sql Tokens NodeFacts Schema ConversionFacts PropertiesLiterals
  PropertiesLambda.
Import ListNotations.
Open Scope nat_scope.
Open Scope string_scope.
Open Scope list_scope.

(** * What resolving means *)

(** [r] are the elements of [l] with the property, in order. *)
Inductive picks {A} (P : A -> Prop) : list A -> list A -> Prop :=
| picks_nil : picks P [] []
| picks_yes a l r : P a -> picks P l r -> picks P (a :: l) (a :: r)
| picks_no a l r : ~ P a -> picks P l r -> picks P (a :: l) r.
(** A column of that name; a column of a table (or alias) of that name. *)
Definition named (n : string) (f : sfield) : Prop := f_name f = Some n.
Definition column_of (tb : string) (f : sfield) : Prop := rel_id (f_source f) = Some tb.
Definition is_column (e : node) : Prop :=
  match e with NField _ _ _ | NStar _ _ => True | _ => False end.
Definition is_table (e : node) : Prop := match e with NTable _ _ _ => True | _ => False end.
Definition no_table_name (tr : tref node) : Prop := tr = TRNone \/ tr = TRVal NNone.

(** [e'] is [e] with the types of its columns filled in from the schema, and nothing else changed. *)
Inductive resolves (sc : schema) : node -> node -> Prop :=
| res_column n tr t f : no_table_name tr -> picks (named n) (s_fields sc) [f] ->
    resolves sc (NField n tr t) (NField n tr (f_type f))
| res_unknown n tr t : no_table_name tr -> picks (named n) (s_fields sc) [] ->
    resolves sc (NField n tr t) (NField n tr t)
| res_table_column n tb t f : In tb (s_ids sc) -> picks (column_of tb) (s_fields sc) [f] ->
    resolves sc (NField n (TRStr tb) t) (NField n (TRStr tb) (f_type f))
| res_table_unknown n tb t : ~ In tb (s_ids sc) \/ s_fields sc = [] ->
    resolves sc (NField n (TRStr tb) t) (NField n (TRStr tb) t)
| res_dereference n v t : v <> NNone -> is_query v = false -> s_fields sc = [] ->
    resolves sc (NField n (TRVal v) t) (NField n (TRVal v) t)
| res_star tr t : no_table_name tr -> resolves sc (NStar tr t) (NStar tr (TRow (map f_type (s_fields sc))))
| res_table_star tb t l : picks (column_of tb) (s_fields sc) l ->
    resolves sc (NStar (TRStr tb) t) (NStar (TRStr tb) (TRow (map f_type l)))
| res_dereference_star v t l :
    v <> NNone -> is_query v = false ->
    (if is_value v then Forall (fun f => exists tb, column_of tb f) (s_fields sc) /\ l = s_fields sc else l = []) ->
    resolves sc (NStar (TRVal v) t) (NStar (TRVal v) (TRow (map f_type l)))
| res_node e e' :
    ~ is_column e -> ~ is_table e -> shell e' = shell e -> Forall2 (resolves sc) (kids e) (kids e') -> resolves sc e e'.

(** * Lists *)
Lemma picks_filter {A} (P : A -> Prop) p (l r : list A) : (forall a, p a = true <-> P a) ->
  picks P l r <-> r = filter p l.
Proof.
  intro Hp. split.
  - intro H. induction H as [|a l r Ha H IH|a l r Ha H IH]; cbn [filter]; [reflexivity|..].
    + apply Hp in Ha. rewrite Ha. congruence.
    + destruct (p a) eqn:E; [exfalso; apply Ha; now apply Hp|exact IH].
  - intros ->. induction l as [|a l IH]; cbn [filter]; [constructor|].
    destruct (p a) eqn:E; constructor; try exact IH; [now apply Hp|]. intro H. apply Hp in H. congruence.
Qed.
Lemma name_eqb_eq a b : name_eqb a b = true <-> a = b.
Proof.
  destruct a as [a|], b as [b|]; cbn; try (split; congruence).
  rewrite String.eqb_eq. split; congruence.
Qed.
Lemma picks_named n l r : picks (named n) l r <-> r = filter (fun f => name_eqb (f_name f) (Some n)) l.
Proof. apply picks_filter. intro f. apply name_eqb_eq. Qed.
Lemma picks_table tb l r : picks (column_of tb) l r <-> r = filter (from_table tb) l.
Proof. apply picks_filter. intro f. apply name_eqb_eq. Qed.
Lemma mem_in s l : mem s l = true <-> In s l.
Proof.
  unfold mem. rewrite existsb_exists. split.
  - intros (x & H & E). apply String.eqb_eq in E. now subst.
  - intro H. exists s. split; [exact H|apply String.eqb_refl].
Qed.

(** * Columns *)
Definition unqualified sc n tr t : result node :=
  match filter (fun f => name_eqb (f_name f) (Some n)) (s_fields sc) with
  | [] => Ok (NField n tr t)
  | l => let* d := the_type l in Ok (NField n tr d)
  end.
Definition dereference sc n v t : result node :=
  if is_query v then Err NotImplementedError
  else match s_fields sc with [] => Ok (NField n (TRVal v) t) | _ => Err TypeError end.
Lemma make_field_none sc n tr t : no_table_name tr -> make_field sc n tr t = unqualified sc n tr t.
Proof. intros [-> | ->]; reflexivity. Qed.
Lemma make_field_value sc n v t : v <> NNone -> make_field sc n (TRVal v) t = dereference sc n v t.
Proof. intro H. destruct v; try reflexivity. now exfalso. Qed.
Definition dereference_star sc v : result node :=
  if is_query v then Err NotImplementedError
  else let* l := each (fun f => let* b := from_value v f in Ok (if b then [f] else [])) (s_fields sc) in
       Ok (NStar (TRVal v) (TRow (map f_type (concat l)))).
Lemma make_star_none sc tr t : no_table_name tr -> make_star sc tr t = Ok (NStar tr (TRow (map f_type (s_fields sc)))).
Proof. intros [-> | ->]; reflexivity. Qed.
Lemma make_star_value sc v t : v <> NNone -> make_star sc (TRVal v) t = dereference_star sc v.
Proof. intro H. destruct v; try reflexivity. now exfalso. Qed.
Lemma none_dec (v : node) : v = NNone \/ v <> NNone.
Proof. destruct v; (now left) || (right; discriminate). Qed.

Lemma unqualified_resolves sc n tr t e : no_table_name tr -> unqualified sc n tr t = Ok e -> resolves sc (NField n tr t) e.
Proof.
  intros H. unfold unqualified.
  destruct (filter _ _) as [|f [|g r]] eqn:F; cbn [the_type bind]; intro E; try discriminate E; injection E as <-.
  - apply res_unknown; [exact H|]. now apply picks_named.
  - apply res_column; [exact H|]. now apply picks_named.
Qed.
Lemma make_field_resolves sc n tr t e : make_field sc n tr t = Ok e -> resolves sc (NField n tr t) e.
Proof.
  destruct tr as [|tb|v].
  - rewrite make_field_none by now left. apply unqualified_resolves. now left.
  - unfold make_field. destruct (mem tb (s_ids sc)) eqn:M.
    + destruct (s_fields sc) as [|a l] eqn:S; intro E.
      * injection E as <-. apply res_table_unknown. now right.
      * rewrite <- S in E. destruct (filter (from_table tb) (s_fields sc)) as [|f [|g r]] eqn:F; cbn [the_type bind] in E; try discriminate E.
        injection E as <-. apply res_table_column; [now apply mem_in|]. now apply picks_table.
    + intro E. injection E as <-. apply res_table_unknown. left. intro H. apply mem_in in H. congruence.
  - destruct (none_dec v) as [->|V].
    + rewrite make_field_none by now right. apply unqualified_resolves. now right.
    + rewrite make_field_value by exact V. unfold dereference. destruct (is_query v) eqn:Q; [discriminate|].
      destruct (s_fields sc) eqn:S; [|discriminate]. intro E. injection E as <-. now apply res_dereference.
Qed.
Lemma resolves_make_field sc n tr t e : resolves sc (NField n tr t) e -> make_field sc n tr t = Ok e.
Proof.
  intro H. inversion H as [n' tr' t' f T P|n' tr' t' T P|n' tb t' f T P|n' tb t' T|n' v t' V Q S| | | |e1 e2 C]; subst.
  - rewrite make_field_none by exact T. unfold unqualified. apply picks_named in P. now rewrite <- P.
  - rewrite make_field_none by exact T. unfold unqualified. apply picks_named in P. now rewrite <- P.
  - unfold make_field. apply mem_in in T. rewrite T. apply picks_table in P.
    destruct (s_fields sc) as [|a l]; [discriminate P|]. now rewrite <- P.
  - unfold make_field. destruct (mem tb (s_ids sc)) eqn:M; [|reflexivity].
    destruct T as [T| ->]; [|reflexivity]. exfalso. apply T. now apply mem_in.
  - rewrite make_field_value by exact V. unfold dereference. now rewrite Q, S.
  - exfalso. now apply C.
Qed.
Lemma star_values v l r :
  each (fun f => let* b := from_value v f in Ok (if b then [f] else [])) l = Ok r ->
  if is_value v then Forall (fun f => exists tb, column_of tb f) l /\ concat r = l else concat r = [].
Proof.
  revert r. unfold from_value. induction l as [|f l IH]; intros r E.
  - injection E as <-. destruct (is_value v); [split; [constructor|reflexivity]|reflexivity].
  - cbn [each] in E. destruct (is_value v).
    + destruct (rel_id (f_source f)) as [tb|] eqn:R; [|discriminate E]. cbn [bind] in E.
      destruct (each _ l) as [r'|] eqn:E'; [|discriminate E]. injection E as <-. destruct (IH _ eq_refl) as [F C].
      split; [constructor; [now exists tb|exact F]|]. cbn [concat app]. now rewrite C.
    + cbn [bind] in E. destruct (each _ l) as [r'|] eqn:E'; [|discriminate E]. injection E as <-. exact (IH _ eq_refl).
Qed.
Lemma star_values_back v l :
  (is_value v = true -> Forall (fun f => exists tb, column_of tb f) l) ->
  exists r, each (fun f => let* b := from_value v f in Ok (if b then [f] else [])) l = Ok r.
Proof.
  unfold from_value. destruct (is_value v).
  - intro F. specialize (F eq_refl). induction F as [|f l (tb & Hf) F (r & IH)]; [now exists []|].
    exists ([f] :: r). cbn [each]. unfold column_of in Hf. rewrite Hf. cbn [bind]. now rewrite IH.
  - intros _. induction l as [|f l (r & IH)]; [now exists []|]. exists ([] :: r). cbn [each]. now rewrite IH.
Qed.
Lemma make_star_resolves sc tr t e : make_star sc tr t = Ok e -> resolves sc (NStar tr t) e.
Proof.
  destruct tr as [|tb|v].
  - intro E. injection E as <-. apply res_star. now left.
  - intro E. injection E as <-. apply res_table_star. now apply picks_table.
  - destruct (none_dec v) as [->|V].
    + intro E. injection E as <-. apply res_star. now right.
    + rewrite make_star_value by exact V. unfold dereference_star. destruct (is_query v) eqn:Q; [discriminate|].
      destruct (each _ (s_fields sc)) as [l|] eqn:L; [|discriminate]. intro E. injection E as <-.
      apply star_values in L. apply res_dereference_star; assumption.
Qed.
Lemma resolves_make_star sc tr t e : resolves sc (NStar tr t) e -> make_star sc tr t = Ok e.
Proof.
  intro H. inversion H as [| | | | |tr' t' T|tb t' l P|v t' l V Q L|e1 e2 C]; subst.
  - now apply make_star_none.
  - unfold make_star. apply picks_table in P. now rewrite <- P.
  - rewrite make_star_value by exact V. unfold dereference_star. rewrite Q.
    destruct (star_values_back v (s_fields sc)) as [r R].
    { intro E. rewrite E in L. apply L. }
    rewrite R. apply star_values in R. cbn [bind].
    destruct (is_value v); [destruct L as [_ ->], R as [_ ->]|subst l; rewrite R]; reflexivity.
  - exfalso. now apply C.
Qed.
Lemma resolve_step sc e : ~ is_column e -> ~ is_table e -> e <> NNone ->
  resolve_fields sc e = let* e' := node_each (resolve_fields sc) e in mk e'.
Proof.
  intros N1 N2 N3. destruct e; try reflexivity; exfalso; (now apply N1) || (now apply N2) || (now apply N3).
Qed.
Lemma column_dec e : is_column e \/ ~ is_column e.
Proof. destruct e; cbn; tauto. Qed.
Lemma table_dec e : is_table e \/ ~ is_table e.
Proof. destruct e; cbn; tauto. Qed.
Lemma mk_ok e e' : mk e = Ok e' <-> e' = e /\ exists t, check e = Ok t.
Proof.
  unfold mk. destruct (check e) as [t|]; cbn [bind].
  - split; [intro H; injection H as <-; eauto | intros [-> _]; reflexivity].
  - split; [discriminate|intros [_ (t & T)]; discriminate T].
Qed.
(** One step. *)
Lemma resolve_node sc e e' : ~ is_column e -> e <> NNone -> resolve_fields sc e = Ok e' ->
  ~ is_table e /\ node_each (resolve_fields sc) e = Ok e' /\ exists t, check e' = Ok t.
Proof.
  intros C N H. destruct (table_dec e) as [T|T]; [destruct e; destruct T; discriminate H|].
  split; [exact T|]. rewrite resolve_step in H by assumption.
  destruct (node_each (resolve_fields sc) e) as [e1|]; [|discriminate H]. cbn [bind] in H.
  apply mk_ok in H as [-> (t & E)]. split; [reflexivity|]. eauto.
Qed.

Theorem C28_resolved : forall sc e e', resolve_fields sc e = Ok e' -> resolves sc e e'.
Proof.
  intros sc e. induction e as [e IH] using kids_ind. intros e' H.
  destruct (column_dec e) as [C|C].
  { destruct e; try destruct C; [now apply make_field_resolves|now apply make_star_resolves]. }
  destruct (none_dec e) as [->|N].
  { injection H as <-. apply res_node; [intros []|intros []|reflexivity|constructor]. }
  destruct (resolve_node _ _ _ C N H) as (T & E & _).
  apply res_node; [exact C|exact T| |].
  - destruct (shell_ok e) as [s Es]. unfold shell in *. rewrite (t_shell trav_node _ _ _ _ E Es). now symmetry.
  - apply (t_parts trav_node) in E. clear H C N T. revert E IH. generalize (kids e').
    induction (kids e) as [|k ks IHk]; intros l F IH; inversion F; subst; constructor.
    + apply IH; [now left|assumption].
    + apply IHk; [assumption|intros; apply IH; [now right|assumption]].
Qed.
Print Assumptions C28_resolved.

(** The parts of what can be built can be built. *)
Definition built (e : node) : Prop := exists t, check e = Ok t.
Lemma each_all {A B} (f : A -> result B) (P : A -> Prop) l r :
  (forall x y, f x = Ok y -> P x) -> each f l = Ok r -> Forall P l.
Proof.
  intro H. revert r. induction l as [|x l IH]; intros r E; constructor; cbn [each] in E; unbind; eauto.
Qed.
Definition needs {A} (f : A -> result unit) (P : A -> Prop) : Prop := forall x, f x = Ok tt -> P x.
Lemma needs_any {A} (f : A -> result unit) P x u : needs f P -> f x = Ok u -> P x.
Proof. destruct u. auto. Qed.
Lemma all_ok_all {A} (f : A -> result unit) P l u : needs f P -> all_ok f l = Ok u -> Forall P l.
Proof. intros H E. unfold all_ok in E. unbind. eapply each_all; [|eassumption]. intros. eapply needs_any; eassumption. Qed.
Lemma opt_ok_all {A} (f : A -> result unit) P x u : needs f P -> opt_ok f x = Ok u -> Forall P (opt_kids x).
Proof. intros H. destruct x; cbn; intro E; repeat constructor; eapply needs_any; eassumption. Qed.
Lemma Forall_o_value {A} (P : A -> Prop) l : Forall (fun o => P (o_value o)) l -> Forall P (map o_value l).
Proof. induction 1; constructor; assumption. Qed.
Lemma orders_all {A} (f : A -> result unit) P l u : needs f P -> all_ok (order_ok f) l = Ok u -> Forall P (map o_value l).
Proof.
  intros H E. apply Forall_o_value. eapply all_ok_all; [|exact E].
  intros [v d n] X. cbn in *. now apply H.
Qed.
Lemma bound_all {A} (f : A -> result unit) P b u : needs f P -> bound_ok f b = Ok u -> Forall P (bound_kids b).
Proof. intros H. destruct b; cbn; intro E; repeat constructor; eapply needs_any; eassumption. Qed.
Lemma window_all {A} (f w : A -> result unit) P x u : needs f P -> needs w P -> window_ok f w x = Ok u -> Forall P (window_kids x).
Proof.
  intros H1 H2. destruct x as [p ob ps fr st en]. cbn [window_ok window_kids]. intro E. unbind.
  rewrite !Forall_app. split; [|split; [|split]].
  - eapply orders_all; [exact H1|eassumption].
  - eapply all_ok_all; [exact H1|eassumption].
  - eapply bound_all; [exact H2|eassumption].
  - eapply bound_all; [exact H2|eassumption].
Qed.
Lemma fopts_all {A} (f w : A -> result unit) P x u : needs f P -> needs w P -> fopts_ok f w x = Ok u -> Forall P (fopts_kids x).
Proof.
  intros H1 H2. destruct x as [ob fi wi ig]. cbn [fopts_ok fopts_kids]. intro E. unbind.
  rewrite !Forall_app. split; [|split].
  - eapply orders_all; [exact H1|eassumption].
  - eapply opt_ok_all; [exact H1|eassumption].
  - destruct wi; [|constructor]. cbn [opt_ok] in E. eapply window_all; [exact H1|exact H2|eassumption].
Qed.
Lemma qattrs_all {A} (f : A -> result unit) P x u : needs f P -> qattrs_ok f x = Ok u -> Forall P (qattrs_kids x).
Proof.
  intros H. destruct x as [wi ob off lim]. cbn [qattrs_ok qattrs_kids]. intro E. unbind.
  rewrite !Forall_app. split; [eapply all_ok_all|eapply orders_all]; eassumption.
Qed.
Lemma group_all {A} (f : A -> result unit) P x u : needs f P -> group_ok f x = Ok u -> Forall P (group_kids x).
Proof.
  intros H. destruct x; cbn [group_ok group_kids]; intro E; unbind; try (eapply all_ok_all; eassumption).
  apply Forall_concat. eapply all_ok_all; [|eassumption]. intros l' E'. eapply all_ok_all; eassumption.
Qed.
Lemma groupby_all {A} (f : A -> result unit) P x u : needs f P -> groupby_ok f x = Ok u -> Forall P (groupby_kids x).
Proof.
  intros H. destruct x as [gs d]. cbn [groupby_ok groupby_kids]. intro E. apply Forall_concat.
  apply Forall_map. eapply all_ok_all; [|eassumption]. intros g E'. eapply group_all; eassumption.
Qed.
Lemma tref_all {A} (f : A -> result unit) P x u : needs f P -> tref_ok f x = Ok u -> Forall P (tref_kids x).
Proof. intros H. destruct x; cbn; intro E; repeat constructor; eapply needs_any; eassumption. Qed.
Lemma jcrit_all {A} (f : A -> result unit) P x u : needs f P -> jcrit_ok f x = Ok u -> Forall P (jcrit_kids x).
Proof. intros H. destruct x; cbn; intro E; repeat constructor; eapply needs_any; eassumption. Qed.
Lemma wrapped_built e t : wrapped e (check e) = Ok t -> built e.
Proof. unfold built. destruct e; try discriminate; cbn [wrapped]; destruct (check _) as [[]|]; eauto; discriminate. Qed.
Lemma tyof_built e t : tyof (check e) = Ok t -> built e.
Proof. unfold built. destruct (check _) as [[]|]; eauto; discriminate. Qed.
Lemma sub_needs : needs (fun x => let* _ := check x in Ok tt) built.
Proof. intros x E. unbind. eexists; eassumption. Qed.
Lemma wsub_needs : needs (fun x => let* _ := wrapped x (check x) in Ok tt) built.
Proof. intros x E. unbind. eapply wrapped_built; eassumption. Qed.
Ltac built_part :=
  match goal with
  | |- Forall _ [] => constructor
  | |- Forall _ (_ :: _) => constructor
  | |- Forall _ (_ ++ _) => apply Forall_app; split
  | E : each (fun x => wrapped x (check x)) ?l = Ok _ |- Forall built ?l => exact (each_all _ _ _ _ wrapped_built E)
  | E : each (fun x => tyof (check x)) ?l = Ok _ |- Forall built ?l => exact (each_all _ _ _ _ tyof_built E)
  | E : check ?x = Ok _ |- built ?x => exact (ex_intro _ _ E)
  | E : wrapped ?x (check ?x) = Ok _ |- built ?x => exact (wrapped_built _ _ E)
  | E : tyof (check ?x) = Ok _ |- built ?x => exact (tyof_built _ _ E)
  | E : all_ok (order_ok _) ?l = Ok _ |- Forall built (map o_value ?l) => exact (orders_all _ _ _ _ sub_needs E)
  | E : all_ok _ ?l = Ok _ |- Forall built ?l => exact (all_ok_all _ _ _ _ sub_needs E) || exact (all_ok_all _ _ _ _ wsub_needs E)
  | E : opt_ok _ ?l = Ok _ |- Forall built (opt_kids ?l) => exact (opt_ok_all _ _ _ _ sub_needs E) || exact (opt_ok_all _ _ _ _ wsub_needs E)
  | E : tref_ok _ ?l = Ok _ |- Forall built (tref_kids ?l) => exact (tref_all _ _ _ _ sub_needs E)
  | E : fopts_ok _ _ ?l = Ok _ |- Forall built (fopts_kids ?l) => exact (fopts_all _ _ _ _ _ sub_needs wsub_needs E)
  | E : qattrs_ok _ ?l = Ok _ |- Forall built (qattrs_kids ?l) => exact (qattrs_all _ _ _ _ sub_needs E)
  end.
Lemma parts_built e : built e -> Forall built (kids e).
Proof.
  intros [t E].
  destruct e; cbn [check kids] in *; unfold some in *; unbind; repeat built_part.
  - apply Forall_concat, Forall_map. eapply each_all; [|eassumption].
    intros [c x] y H. unbind. repeat built_part.
  - destruct gb; [|constructor].
    match goal with H : opt_ok (groupby_ok _) _ = Ok _ |- _ => exact (groupby_all _ _ _ _ sub_needs H) end.
  - apply Forall_concat, Forall_map.
    match goal with H : all_ok (fun nw => let '(_, w) := nw in _) _ = Ok _ |- _ => eapply all_ok_all; [|exact H] end.
    intros [n w] H. exact (window_all _ _ _ _ _ sub_needs wsub_needs H).
  - destruct op; unbind; repeat built_part.
  - destruct op; unbind; repeat built_part.
  - destruct op; unbind; repeat built_part.
  - destruct crit; [|constructor].
    match goal with H : opt_ok (jcrit_ok _) _ = Ok _ |- _ => exact (jcrit_all _ _ _ _ sub_needs H) end.
Qed.
Lemma check_parts e t : check e = Ok t -> forall k, In k (kids e) -> exists u, check k = Ok u.
Proof. intros E. apply Forall_forall. apply parts_built. now exists t. Qed.

(** Every such object is the result, if it can be built. *)
Theorem C28_complete : forall sc e e' t, resolves sc e e' -> check e' = Ok t -> resolve_fields sc e = Ok e'.
Proof.
  intros sc e. induction e as [e IH] using kids_ind. intros e' t R H.
  destruct (column_dec e) as [C|C].
  { destruct e; try destruct C; [now apply resolves_make_field|now apply resolves_make_star]. }
  destruct R as [| | | | | | | |e e' _ T S F]; try (exfalso; apply C; exact I).
  destruct (none_dec e) as [->|N].
  { cbn [resolve_fields]. f_equal. symmetry. apply C33_shell_and_parts; [exact S|]. inversion F. reflexivity. }
  rewrite resolve_step by assumption.
  assert (node_each (resolve_fields sc) e = Ok e') as ->.
  { assert (F' : Forall2 (fun k k' => resolve_fields sc k = Ok k') (kids e) (kids e')).
    { pose proof (check_parts _ _ H) as P. clear - F IH P. revert P. induction F as [|k k' l l' K F IHF]; intro P; constructor.
      - destruct (P k' (or_introl eq_refl)) as [u U]. eapply IH; [now left|exact K|exact U].
      - apply IHF; [intros; eapply IH; [now right|eassumption..]|]. intros. apply P. now right. }
    destruct (t_total trav_node (resolve_fields sc) e) as [e1 E1].
    { clear -F'. induction F' as [|k k' l l' K F' IHF]; [intros ? []|]. intros x [<-|Hx]; eauto. }
    rewrite E1. f_equal. apply C33_shell_and_parts.
    - destruct (shell_ok e) as [s Es]. rewrite S. unfold shell in *. rewrite Es. exact (t_shell trav_node _ _ _ _ E1 Es).
    - apply (t_parts trav_node) in E1. clear -E1 F'. revert E1. generalize (kids e1).
      induction F' as [|k k' l l' K F' IHF]; intros m G; inversion G; subst; [reflexivity|].
      f_equal; [congruence|auto]. }
  cbn [bind]. apply mk_ok. eauto.
Qed.
Print Assumptions C28_complete.
Theorem C28_unique : forall sc e a b, resolves sc e a -> resolves sc e b -> a = b.
Proof.
  intros sc e. induction e as [e IH] using kids_ind. intros a b Ha Hb.
  destruct (column_dec e) as [C|C].
  { destruct e; try destruct C.
    - apply resolves_make_field in Ha, Hb. congruence.
    - apply resolves_make_star in Ha, Hb. congruence. }
  destruct Ha as [| | | | | | | |e a _ _ S F]; try (exfalso; apply C; exact I).
  destruct Hb as [| | | | | | | |e b _ _ S' F']; try (exfalso; apply C; exact I).
  apply C33_shell_and_parts; [congruence|]. clear S S' C. revert F F' IH. generalize (kids a), (kids b).
  induction (kids e) as [|k ks IHk]; intros l m F G IH; inversion F; inversion G; subst; [reflexivity|].
  f_equal.
  - eapply IH; [now left|eassumption..].
  - apply IHk; [assumption..|]. intros; eapply IH; [right|..]; eassumption.
Qed.
Print Assumptions C28_unique.

(** Resolving again changes nothing. *)
Theorem C28_idempotent : forall sc e e', resolve_fields sc e = Ok e' -> resolve_fields sc e' = Ok e'.
Proof.
  intros sc e. induction e as [e IH] using kids_ind. intros e' H.
  destruct (column_dec e) as [C|C].
  { apply C28_resolved in H.
    assert (resolves sc e' e').
    { destruct H; try (now constructor); try (exfalso; apply H; exact C). }
    destruct H; try (now apply resolves_make_field); try (now apply resolves_make_star). exfalso. now apply H. }
  destruct (none_dec e) as [->|N]; [injection H as <-; reflexivity|].
  destruct (resolve_node _ _ _ C N H) as (T & E & t & Ht).
  pose proof (C28_resolved _ _ _ H) as R.
  destruct R as [| | | | | | | |e e' _ _ S F]; try (exfalso; apply C; exact I).
  assert (D : ~ is_column e' /\ ~ is_table e' /\ e' <> NNone).
  { destruct (shell_ok e) as [s Es]. rewrite Es in S. unfold shell in *.
    pose proof (node_class _ _ _ Es) as C1. pose proof (node_class _ _ _ S) as C2.
    destruct s; destruct e; try discriminate C1; destruct e'; try discriminate C2; cbn in *; repeat split; try tauto; discriminate. }
  destruct D as (D1 & D2 & D3). rewrite resolve_step by assumption.
  assert (node_each (resolve_fields sc) e' = Ok e') as ->.
  { assert (F' : forall k, In k (kids e') -> resolve_fields sc k = Ok k).
    { apply (t_parts trav_node) in E. clear - E IH. revert E IH. generalize (kids e').
      induction (kids e) as [|k ks IHk]; intros l F IH; inversion F; subst; [intros ? []|].
      intros x [<-|Hx]; [eapply IH; [now left|eassumption]|].
      eapply IHk; [eassumption|intros; eapply IH; [right; eassumption|eassumption]|exact Hx]. }
    destruct (t_total trav_node (resolve_fields sc) e') as [e1 E1]; [eauto|].
    rewrite E1. f_equal. apply C33_shell_and_parts.
    - destruct (shell_ok e') as [s Es]. unfold shell in *. rewrite Es. exact (t_shell trav_node _ _ _ _ E1 Es).
    - apply (t_parts trav_node) in E1. clear -E1 F'. revert E1 F'. generalize (kids e1).
      induction (kids e') as [|k ks IHk]; intros m G F'; inversion G; subst; [reflexivity|].
      f_equal; [|apply IHk; [assumption|intros; apply F'; now right]].
      enough (Ok y = Ok k) by congruence. rewrite <- (F' k (or_introl eq_refl)). now symmetry. }
  cbn [bind]. apply mk_ok. eauto.
Qed.
Print Assumptions C28_idempotent.

(** The parts that are looked at. *)
Inductive reaches (x : node) : node -> Prop :=
| reaches_here : reaches x x
| reaches_part k e : ~ is_column e -> In k (kids e) -> reaches x k -> reaches x e.
Lemma reaches_resolved sc x e e' : reaches x e -> resolve_fields sc e = Ok e' -> exists x', resolve_fields sc x = Ok x'.
Proof.
  intro R. revert e'. induction R as [|k e C Hk R IH]; intros e' H; [eauto|].
  destruct (none_dec e) as [->|N]; [destruct Hk|].
  destruct (resolve_node _ _ _ C N H) as (_ & E & _). apply (t_parts trav_node) in E.
  clear -E IH Hk. revert E. generalize (kids e'). induction (kids e) as [|q ks IHk]; intros l F; [destruct Hk|].
  inversion F; subst. destruct Hk as [->|Hk]; [eapply IH; eassumption|]. eapply IHk; eassumption.
Qed.
(** A column name that occurs twice in the schema cannot be used without a table. *)
Theorem C28_ambiguous : forall sc n t f g r,
  picks (named n) (s_fields sc) (f :: g :: r) ->
  resolve_fields sc (NField n TRNone t) = Err AssertionError
  /\ forall e e', reaches (NField n TRNone t) e -> resolve_fields sc e <> Ok e'.
Proof.
  intros sc n t f g r P.
  assert (X : resolve_fields sc (NField n TRNone t) = Err AssertionError).
  { apply picks_named in P. cbn [resolve_fields]. unfold make_field. now rewrite <- P. }
  split; [exact X|]. intros e e' R H. destruct (reaches_resolved _ _ _ _ R H) as [x' Y]. congruence.
Qed.
Print Assumptions C28_ambiguous.
(** Nor can an expression with a sub-query over a table be resolved, whatever the schema. *)
Theorem C28_subquery_refuted : forall sc n s c e e',
  reaches (NTable n s c) e -> resolve_fields sc e <> Ok e'.
Proof. intros sc n s c e e' R H. destruct (reaches_resolved _ _ _ _ R H) as [x' Y]. discriminate Y. Qed.
Print Assumptions C28_subquery_refuted.

(** * Qualified columns: what happens in every case *)
Theorem C29_exactly : forall sc n tb t,
  resolve_fields sc (NField n (TRStr tb) t)
  = Ok (NField n (TRStr tb) t) /\ (~ In tb (s_ids sc) \/ s_fields sc = [])
  \/ (exists f, picks (column_of tb) (s_fields sc) [f]
      /\ resolve_fields sc (NField n (TRStr tb) t) = Ok (NField n (TRStr tb) (f_type f)) /\ In tb (s_ids sc))
  \/ (resolve_fields sc (NField n (TRStr tb) t) = Err AssertionError
      /\ In tb (s_ids sc) /\ s_fields sc <> []
      /\ exists l, picks (column_of tb) (s_fields sc) l /\ length l <> 1).
Proof.
  intros sc n tb t. cbn [resolve_fields]. unfold make_field.
  destruct (mem tb (s_ids sc)) eqn:M.
  - apply mem_in in M. destruct (s_fields sc) as [|a l] eqn:S; [left; split; [reflexivity|now right]|].
    rewrite <- S in *. right.
    destruct (filter (from_table tb) (s_fields sc)) as [|f [|g r]] eqn:F.
    + right. split; [reflexivity|]. split; [exact M|]. split; [congruence|]. exists []. split; [now apply picks_table|discriminate].
    + left. exists f. split; [now apply picks_table|]. split; [reflexivity|exact M].
    + right. split; [reflexivity|]. split; [exact M|]. split; [congruence|]. exists (f :: g :: r).
      split; [now apply picks_table|discriminate].
  - left. split; [reflexivity|]. left. intro H. apply mem_in in H. congruence.
Qed.
Print Assumptions C29_exactly.
(** Right for a table with one column, if that is the one meant. *)
Theorem C29_single_column : forall sc n tb t f,
  In tb (s_ids sc) -> picks (column_of tb) (s_fields sc) [f] -> named n f ->
  resolve_fields sc (NField n (TRStr tb) t) = Ok (NField n (TRStr tb) (f_type f)).
Proof. intros sc n tb t f H P _. apply resolves_make_field. now apply res_table_column. Qed.
Print Assumptions C29_single_column.
(** But the name of the column plays no role ... *)
Theorem C29_name_ignored : forall sc n n' tb t,
  resolve_fields sc (NField n (TRStr tb) t)
  = let* e := resolve_fields sc (NField n' (TRStr tb) t) in
    match e with NField _ tr d => Ok (NField n tr d) | _ => Ok e end.
Proof.
  intros sc n n' tb t. cbn [resolve_fields]. unfold make_field.
  destruct (if mem tb (s_ids sc) then s_fields sc else []); [reflexivity|].
  destruct (the_type _); reflexivity.
Qed.
Print Assumptions C29_name_ignored.
(** ... so that no column of a table with two columns can be resolved, ... *)
Theorem C29_two_columns_raise : forall sc n tb t f g r,
  In tb (s_ids sc) -> picks (column_of tb) (s_fields sc) (f :: g :: r) ->
  resolve_fields sc (NField n (TRStr tb) t) = Err AssertionError.
Proof.
  intros sc n tb t f g r H P. cbn [resolve_fields]. unfold make_field. apply mem_in in H. rewrite H.
  apply picks_table in P. destruct (s_fields sc) as [|a l]; [discriminate P|]. now rewrite <- P.
Qed.
Print Assumptions C29_two_columns_raise.
(** ... and neither one of a table about which nothing is known if something is known about another one. *)
Theorem C29_unknown_table_raises : forall sc n tb t f,
  In tb (s_ids sc) -> picks (column_of tb) (s_fields sc) [] -> In f (s_fields sc) ->
  resolve_fields sc (NField n (TRStr tb) t) = Err AssertionError.
Proof.
  intros sc n tb t f H P Hf. cbn [resolve_fields]. unfold make_field. apply mem_in in H. rewrite H.
  apply picks_table in P. destruct (s_fields sc) as [|a l]; [destruct Hf|]. now rewrite <- P.
Qed.
Print Assumptions C29_unknown_table_raises.

(** Cases: x INTEGER and y VARCHAR of a, z BIGINT of b. *)
Local Definition ta : node := NTable "a" None None.
Local Definition tb : node := NTable "b" None None.
Local Definition sc2 : schema :=
  mkS [mkF (Some "x") ta integer; mkF (Some "y") ta (TVarchar (Some 3%Z)); mkF (Some "z") tb bigint] ["a"; "b"; "c"].
Local Definition typed (n : string) (t : dtype) : node := NField n TRNone t.
Example C28_case :
  let e := NFunc FNullIf [NBin BAdd (column "x") (column "z"); NCase [(NLike (column "y") (column "w") None, NField "z" (TRStr "b") unknown)] None None] no_fopts in
  let e' := NFunc FNullIf [NBin BAdd (typed "x" integer) (typed "z" bigint);
                           NCase [(NLike (typed "y" (TVarchar (Some 3%Z))) (column "w") None, NField "z" (TRStr "b") bigint)] None None] no_fopts in
  resolve_fields sc2 e = Ok e' /\ data_type e = Ok unknown /\ data_type e' = Ok bigint
  /\ resolve_fields sc2 (NStar TRNone unknown) = Ok (NStar TRNone (TRow [integer; TVarchar (Some 3%Z); bigint]))
  /\ resolve_fields sc2 (NStar (TRStr "a") unknown) = Ok (NStar (TRStr "a") (TRow [integer; TVarchar (Some 3%Z)])).
Proof. cbv zeta. each_part. Qed.
Example C28_case_picks : picks (named "y") (s_fields sc2) [mkF (Some "y") ta (TVarchar (Some 3%Z))].
Proof. now apply picks_named. Qed.
Local Definition scx : schema := mkS [mkF (Some "x") ta integer; mkF (Some "x") tb bigint] ["a"; "b"].
Example C28_case_ambiguous :
  picks (named "x") (s_fields scx) (s_fields scx) /\ reaches (column "x") (NBin BAdd (column "u") (NUn UNeg (column "x"))).
Proof.
  split; [now apply picks_named|].
  eapply reaches_part; [intros []|right; left; reflexivity|].
  eapply reaches_part; [intros []|left; reflexivity|]. constructor.
Qed.
Example C28_case_subquery :
  reaches (NTable "t" None None)
    (NInQuery (column "x") (NSelect [column "a"] (Some (NTable "t" None None)) None None None false [] no_qattrs)).
Proof.
  eapply reaches_part; [intros []|right; left; reflexivity|].
  eapply reaches_part; [intros []|right; left; reflexivity|]. constructor.
Qed.
(** The right type for b.z, none for a.x and c.w, and the type of b.z for a column b.u that does not exist. *)
Example C29_case :
  resolve_fields sc2 (NField "z" (TRStr "b") unknown) = Ok (NField "z" (TRStr "b") bigint)
  /\ resolve_fields sc2 (NField "x" (TRStr "a") unknown) = Err AssertionError
  /\ resolve_fields sc2 (NField "w" (TRStr "c") unknown) = Err AssertionError
  /\ resolve_fields sc2 (NField "u" (TRStr "b") unknown) = Ok (NField "u" (TRStr "b") bigint)
  /\ picks (column_of "a") (s_fields sc2) [mkF (Some "x") ta integer; mkF (Some "y") ta (TVarchar (Some 3%Z))]
  /\ picks (column_of "b") (s_fields sc2) [mkF (Some "z") tb bigint]
  /\ picks (column_of "c") (s_fields sc2) [].
Proof. split; [|split; [|split; [|split; [|split; [|split]]]]]; (vm_compute; reflexivity) || now apply picks_table. Qed.
(** What should hold and does not. *)
Theorem C29_refuted :
  exists sc f, In f (s_fields sc) /\ named "x" f /\ column_of "a" f /\ In "a" (s_ids sc)
    /\ picks (named "x") (s_fields sc) [f]
    /\ resolve_fields sc (NField "x" (TRStr "a") unknown) <> Ok (NField "x" (TRStr "a") (f_type f)).
Proof.
  exists sc2, (mkF (Some "x") ta integer). split; [now left|]. split; [reflexivity|]. split; [reflexivity|].
  split; [now left|]. split; [now apply picks_named|]. vm_compute. discriminate.
Qed.
Print Assumptions C29_refuted.
