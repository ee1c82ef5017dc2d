(** Lambda parameters read back: the parser first reads a parameter as a
    column, and the enclosing lambda turns it into a parameter reference. *)
From Coq Require Import String List ZArith NArith Bool Arith Lia.
From Verif Require Import PyStr Types TypeFacts Inference Lexer TypeParser Functions Ast Sql Tokens Walk Parser
  ParseParts ParseForms Good.
Import ListNotations.
Open Scope nat_scope.
Open Scope string_scope.
Open Scope list_scope.

(** * Maps over the parts of a node *)
Definition order_fmap {A B} (f : A -> B) (x : order A) : order B :=
  let 'mkOrder v d n := x in mkOrder (f v) d n.
Definition bound_fmap {A B} (f : A -> B) (x : bound A) : bound B :=
  match x with BBounded d v => BBounded d (f v) | BUnbounded d => BUnbounded d | BCurrent => BCurrent end.
Definition window_fmap {A B} (f : A -> B) (x : window A) : window B :=
  let 'mkWindow p ob ps fr s e := x in
  mkWindow p (map (order_fmap f) ob) (map f ps) fr (bound_fmap f s) (bound_fmap f e).
Definition fopts_fmap {A B} (f : A -> B) (x : fopts A) : fopts B :=
  let 'mkFopts ob fi wi ig := x in
  mkFopts (map (order_fmap f) ob) (option_map f fi) (option_map (window_fmap f) wi) ig.

(** [e] with the parameters not in [bs] replaced by columns. *)
Fixpoint unvar (bs : list string) (e : node) {struct e} : node :=
  let u := unvar bs in
  match e with
  | NVar n => if mem n bs then e else NField n TRNone unknown
  | NLambda ws b => NLambda ws (unvar (ws ++ bs) b)
  | NUn op v => NUn op (u v)
  | NBin op l r => NBin op (u l) (u r)
  | NBetween a b c => NBetween (u a) (u b) (u c)
  | NArray l => NArray (map u l)
  | NInQuery v q => NInQuery (u v) q
  | NInList v l => NInList (u v) (map u l)
  | NLike a b c => NLike (u a) (u b) (option_map u c)
  | NRow l => NRow (map u l)
  | NCast tr v t => NCast tr (u v) t
  | NSubscript a b => NSubscript (u a) (u b)
  | NCase bs el v =>
      NCase (map (fun cv => let '(c, x) := cv in (u c, u x)) bs) (option_map u el) (option_map u v)
  | NFunc g args fo => NFunc g (map u args) (fopts_fmap u fo)
  | NListAgg v sep ov ob => NListAgg (u v) sep ov (map (order_fmap u) ob)
  | _ => e
  end.

(** * Maps that agree on the parts *)
Lemma map_same {A} (f : A -> A) l : (forall x, In x l -> f x = x) -> map f l = l.
Proof. intro H. rewrite <- (map_id l) at 2. now apply map_ext_in. Qed.
Lemma option_same {A} (f : A -> A) x : (forall a, In a (opt_kids x) -> f a = a) -> option_map f x = x.
Proof. destruct x as [a|]; intro H; cbn; [rewrite H by (now left)|]; reflexivity. Qed.
Lemma order_same {A} (f : A -> A) o : f (o_value o) = o_value o -> order_fmap f o = o.
Proof. destruct o; cbn. now intros ->. Qed.
Lemma orders_same {A} (f : A -> A) l :
  (forall x, In x (map o_value l) -> f x = x) -> map (order_fmap f) l = l.
Proof. intro H. apply map_same. intros o Ho. apply order_same, H. now apply in_map. Qed.
Lemma bound_same {A} (f : A -> A) x : (forall a, In a (bound_kids x) -> f a = a) -> bound_fmap f x = x.
Proof. destruct x as [d v|d|]; intro H; cbn; [rewrite H by (now left)|..]; reflexivity. Qed.
Lemma window_same {A} (f : A -> A) x : (forall a, In a (window_kids x) -> f a = a) -> window_fmap f x = x.
Proof.
  destruct x as [p ob ps fr s e]. cbn [window_kids window_fmap]. intro H.
  rewrite orders_same, map_same, !bound_same; [reflexivity|..]; intros a Ha; apply H; rewrite !in_app_iff; tauto.
Qed.
Lemma fopts_same {A} (f : A -> A) x : (forall a, In a (fopts_kids x) -> f a = a) -> fopts_fmap f x = x.
Proof.
  destruct x as [ob fi wi ig]. cbn [fopts_kids fopts_fmap]. intro H.
  rewrite orders_same, option_same; [|intros a Ha; apply H; rewrite !in_app_iff; tauto ..].
  destruct wi as [w|]; [|reflexivity]. cbn [option_map].
  rewrite window_same; [reflexivity|]. intros a Ha; apply H; rewrite !in_app_iff; tauto.
Qed.

Lemma each_ext {A B} (f g : A -> result B) l : (forall x, In x l -> f x = g x) -> each f l = each g l.
Proof.
  induction l as [|a l IH]; intro H; [reflexivity|]. cbn [each]. rewrite H by (now left).
  rewrite IH by (intros; apply H; now right). reflexivity.
Qed.
Lemma each_map {A B C} (f : B -> result C) (g : A -> B) l : each f (map g l) = each (fun x => f (g x)) l.
Proof. induction l as [|a l IH]; [reflexivity|]. cbn [each map]. now rewrite IH. Qed.
Lemma all_ok_map {A B} (f : B -> result unit) (g : A -> B) (h : A -> result unit) l :
  (forall x, In x l -> f (g x) = h x) -> all_ok f (map g l) = all_ok h l.
Proof. intro H. unfold all_ok. rewrite each_map. now rewrite (each_ext _ h). Qed.
Lemma orders_ok_map {A B} (f : B -> result unit) (g : A -> B) (h : A -> result unit) l :
  (forall x, In x (map o_value l) -> f (g x) = h x) ->
  all_ok (order_ok f) (map (order_fmap g) l) = all_ok (order_ok h) l.
Proof.
  intro H. apply all_ok_map. intros [v d n] Hx. cbn. apply H. now apply (in_map o_value) in Hx.
Qed.
Lemma opt_ok_map {A B} (f : B -> result unit) (g : A -> B) (h : A -> result unit) x :
  (forall a, In a (opt_kids x) -> f (g a) = h a) -> opt_ok f (option_map g x) = opt_ok h x.
Proof. destruct x as [a|]; intro H; cbn; [apply H; now left | reflexivity]. Qed.
Lemma bound_ok_map {A B} (f : B -> result unit) (g : A -> B) (h : A -> result unit) x :
  (forall a, In a (bound_kids x) -> f (g a) = h a) -> bound_ok f (bound_fmap g x) = bound_ok h x.
Proof. destruct x; intro H; cbn; [apply H; now left | reflexivity ..]. Qed.
Lemma window_ok_map {A B} (f w : B -> result unit) (g : A -> B) (h k : A -> result unit) x :
  (forall a, In a (window_kids x) -> f (g a) = h a /\ w (g a) = k a) ->
  window_ok f w (window_fmap g x) = window_ok h k x.
Proof.
  destruct x as [p ob ps fr s e]. cbn [window_kids window_fmap window_ok]. intro H.
  rewrite (orders_ok_map f g h), (all_ok_map f g h), !(bound_ok_map w g k); [reflexivity|..];
    intros a Ha; apply H; rewrite !in_app_iff; tauto.
Qed.
Lemma fopts_ok_map {A B} (f w : B -> result unit) (g : A -> B) (h k : A -> result unit) x :
  (forall a, In a (fopts_kids x) -> f (g a) = h a /\ w (g a) = k a) ->
  fopts_ok f w (fopts_fmap g x) = fopts_ok h k x.
Proof.
  destruct x as [ob fi wi ig]. cbn [fopts_kids fopts_fmap fopts_ok]. intro H.
  rewrite (orders_ok_map f g h), (opt_ok_map f g h); [|intros a Ha; apply H; rewrite !in_app_iff; tauto ..].
  destruct wi as [w0|]; [|reflexivity]. cbn [option_map opt_ok].
  rewrite (window_ok_map f w g h k); [reflexivity|]. intros a Ha; apply H; rewrite !in_app_iff; tauto.
Qed.

(** [subst] composed with a map. *)
Lemma each_all {A B C} (f : B -> result C) (g : A -> B) (h : A -> C) l :
  (forall x, In x l -> f (g x) = Ok (h x)) -> each f (map g l) = Ok (map h l).
Proof. intro H. rewrite each_map. now apply each_ok. Qed.
Lemma orders_all {A B C} (f : B -> result C) (g : A -> B) (h : A -> C) l :
  (forall x, In x (map o_value l) -> f (g x) = Ok (h x)) ->
  each (order_map f) (map (order_fmap g) l) = Ok (map (order_fmap h) l).
Proof.
  intro H. apply each_all. intros [v d n] Hx. cbn.
  rewrite H by (now apply (in_map o_value) in Hx). reflexivity.
Qed.
Lemma opt_all_map {A B C} (f : B -> result C) (g : A -> B) (h : A -> C) x :
  (forall a, In a (opt_kids x) -> f (g a) = Ok (h a)) -> opt_map f (option_map g x) = Ok (option_map h x).
Proof. destruct x as [a|]; intro H; cbn; [rewrite H by (now left)|]; reflexivity. Qed.
Lemma bound_all {A B C} (f : B -> result C) (g : A -> B) (h : A -> C) x :
  (forall a, In a (bound_kids x) -> f (g a) = Ok (h a)) -> bound_map f (bound_fmap g x) = Ok (bound_fmap h x).
Proof. destruct x as [d v|d|]; intro H; cbn; [rewrite H by (now left)|..]; reflexivity. Qed.
Lemma window_all {A B C} (f : B -> result C) (g : A -> B) (h : A -> C) x :
  (forall a, In a (window_kids x) -> f (g a) = Ok (h a)) ->
  window_map f (window_fmap g x) = Ok (window_fmap h x).
Proof.
  destruct x as [p ob ps fr s e]. cbn [window_kids window_fmap window_map]. intro H.
  rewrite (orders_all f g h); [|intros a Ha; apply H; rewrite !in_app_iff; tauto]. cbn [bind].
  rewrite (each_all f g h); [|intros a Ha; apply H; rewrite !in_app_iff; tauto]. cbn [bind].
  rewrite (bound_all f g h); [|intros a Ha; apply H; rewrite !in_app_iff; tauto]. cbn [bind].
  rewrite (bound_all f g h); [|intros a Ha; apply H; rewrite !in_app_iff; tauto]. reflexivity.
Qed.
Lemma fopts_all {A B C} (f : B -> result C) (g : A -> B) (h : A -> C) x :
  (forall a, In a (fopts_kids x) -> f (g a) = Ok (h a)) ->
  fopts_map f (fopts_fmap g x) = Ok (fopts_fmap h x).
Proof.
  destruct x as [ob fi wi ig]. cbn [fopts_kids fopts_fmap fopts_map]. intro H.
  rewrite (orders_all f g h); [|intros a Ha; apply H; rewrite !in_app_iff; tauto]. cbn [bind].
  rewrite (opt_all_map f g h); [|intros a Ha; apply H; rewrite !in_app_iff; tauto]. cbn [bind].
  destruct wi as [w|]; [|reflexivity]. cbn [option_map opt_map].
  rewrite (window_all f g h); [reflexivity|]. intros a Ha; apply H; rewrite !in_app_iff; tauto.
Qed.

(** * Properties of [unvar] *)
Lemma mem_app n a b : mem n (a ++ b) = (mem n a || mem n b)%bool.
Proof. unfold mem. apply existsb_app. Qed.

Lemma case_kids (bs : list (node * node)) c x :
  In (c, x) bs -> In c (concat (map (fun cv => [fst cv; snd cv]) bs))
                  /\ In x (concat (map (fun cv => [fst cv; snd cv]) bs)).
Proof.
  intro H. split; apply in_concat; exists [c; x]; (split; [apply in_map_iff; exists (c, x); auto|]); cbn; auto.
Qed.

Lemma unvar_same en vs e : good en vs e ->
  forall bs, (forall n, mem n vs = true -> mem n bs = true) -> unvar bs e = e.
Proof.
  induction 1 as [vs e H _ IH]. intros bs Hbs.
  assert (K : match e with NLambda _ _ => True | _ => forall x, In x (kids e) -> unvar bs x = x end).
  { destruct e; try exact I; intros x Hx; apply (IH x Hx); cbn [scope]; exact Hbs. }
  destruct e; cbn [unvar]; cbn [kids] in K; try reflexivity;
    try (rewrite ?(fun v Hv => K v Hv) by (cbn; auto); reflexivity).
  - cbn in H. apply andb_true_iff in H as [H _]. now rewrite Hbs.
  - rewrite (IH e); [reflexivity | now left |]. intros n Hn. cbn [scope] in Hn.
    rewrite mem_app in *. apply orb_true_iff in Hn as [->|Hn]; [reflexivity|].
    rewrite Hbs by exact Hn. apply orb_true_r.
  - now rewrite map_same.
  - rewrite map_same by (intros; apply K; now right). rewrite K by (now left). reflexivity.
  - rewrite option_same by (intros; apply K; now (right; right)).
    rewrite !K by (cbn; auto). reflexivity.
  - now rewrite map_same.
  - rewrite map_same, !option_same; [reflexivity|..].
    + intros a Ha. apply K. rewrite !in_app_iff. auto.
    + intros a Ha. apply K. rewrite !in_app_iff. auto.
    + intros [c x] Hx. destruct (case_kids _ _ _ Hx). rewrite !K; [reflexivity|..]; rewrite !in_app_iff; auto.
  - rewrite map_same by (intros; apply K, in_app_iff; auto).
    rewrite fopts_same by (intros; apply K, in_app_iff; auto). reflexivity.
  - rewrite K by (now left). rewrite orders_same by (intros; apply K; now right). reflexivity.
Qed.

Lemma wrapped_unvar bs e : wrapped (unvar bs e) = wrapped e.
Proof. destruct e; try reflexivity. cbn [unvar]. now destruct (mem name bs). Qed.

Lemma check_unvar en vs e : good en vs e -> forall bs, check (unvar bs e) = check e.
Proof.
  induction 1 as [vs e H _ IH]. intro bs.
  assert (W : forall b x, In x (kids e) -> wrapped (unvar b x) (check (unvar b x)) = wrapped x (check x)).
  { intros b x Hx. now rewrite wrapped_unvar, IH. }
  destruct e; cbn [unvar]; cbn [kids] in IH, W; try reflexivity;
    try (cbn [check]; rewrite ?W, ?IH by (cbn; auto); reflexivity).
  - now destruct (mem name bs).
  - cbn [check]. rewrite each_map.
    rewrite (each_ext _ (fun x => wrapped x (check x))) by (intros; now apply W). reflexivity.
  - cbn [check]. rewrite W by (now left).
    rewrite (all_ok_map _ _ (fun x => let* _ := wrapped x (check x) in Ok tt))
      by (intros; rewrite W by (now right); reflexivity). reflexivity.
  - cbn [check]. rewrite !W by (cbn; auto).
    rewrite (opt_ok_map _ _ (fun x => let* _ := wrapped x (check x) in Ok tt))
      by (intros; rewrite W by (cbn; auto); reflexivity). reflexivity.
  - cbn [check]. rewrite each_map.
    rewrite (each_ext _ (fun x => tyof (check x))) by (intros; now rewrite IH). reflexivity.
  - cbn [check]. rewrite each_map.
    rewrite (each_ext _ (fun cv : node * node => let '(c, x) := cv in
                           let* _ := wrapped c (check c) in wrapped x (check x))).
    2:{ intros [c x] Hx. destruct (case_kids _ _ _ Hx). rewrite !W by (rewrite !in_app_iff; auto). reflexivity. }
    rewrite !(opt_ok_map _ _ (fun x => let* _ := wrapped x (check x) in Ok tt))
      by (intros; rewrite W by (rewrite !in_app_iff; auto); reflexivity). reflexivity.
  - cbn [check]. rewrite each_map.
    rewrite (each_ext _ (fun x => wrapped x (check x))) by (intros; apply W; rewrite in_app_iff; auto).
    rewrite (fopts_ok_map _ _ _ (fun x => let* _ := check x in Ok tt) (fun x => let* _ := wrapped x (check x) in Ok tt)).
    2:{ intros a Ha. rewrite W, IH by (rewrite in_app_iff; auto). auto. }
    rewrite map_length.
    assert (fopts_empty (fopts_fmap (unvar bs) fo) = fopts_empty fo) as ->.
    { destruct fo as [[|] [|] [|] []]; reflexivity. }
    assert (count_ok f (map (unvar bs) args) (fopts_fmap (unvar bs) fo) = count_ok f args fo) as ->.
    { destruct f; try reflexivity. destruct args as [|a [|b l]]; try reflexivity.
      - cbn [map]. destruct fo as [[|] fi wi ig]; destruct a; cbn [unvar]; try reflexivity; destruct (mem name bs); reflexivity.
      - cbn [map]. unfold count_ok. destruct a; cbn [unvar]; try reflexivity; destruct (mem name bs); reflexivity. }
    reflexivity.
  - cbn [check]. rewrite W by (now left).
    rewrite (orders_ok_map _ _ (fun x => let* _ := check x in Ok tt)) by (intros; rewrite IH by (now right); reflexivity).
    destruct orderby; reflexivity.
Qed.

Lemma unvar_expr bs e : is_expr (unvar bs e) = is_expr e.
Proof. destruct e; try reflexivity. cbn [unvar]. now destruct (mem name bs). Qed.

Lemma subst_unvar en vs e : good en vs e -> vs <> [] -> is_item e = true ->
  forall ws bs bs', (forall n, mem n bs' = (mem n ws || mem n bs)%bool) ->
  (forall n, mem n ws = true -> mem n vs = true) ->
  subst ws (unvar bs e) = Ok (unvar bs' e).
Proof.
  induction 1 as [vs e H _ IH]. intros V0 Hi ws bs bs' Hbs Hws.
  assert (Vs : nonempty vs = true) by (destruct vs; [congruence|reflexivity]).
  assert (K : match e with NLambda _ _ => True
              | _ => forall x, In x (kids e) -> is_item x = true -> subst ws (unvar bs x) = Ok (unvar bs' x) end).
  { destruct e; try exact I; intros x Hx Ix; apply (IH x Hx); auto. }
  assert (E : forall x, is_expr x = true -> is_item x = true).
  { intros x Hx. unfold is_item. now rewrite Hx. }
  unfold good_here in H. apply andb_true_iff in H as [_ H].
  destruct e; try discriminate Hi; cbn [kids] in K.
  - (* literal *) reflexivity.
  - (* column *)
    apply andb_true_iff in H as [_ H]. destruct table as [|s|]; [|reflexivity|discriminate].
    cbn [unvar subst]. apply negb_true_iff in H.
    destruct (mem name ws) eqn:M; [|reflexivity]. rewrite (Hws _ M) in H. discriminate.
  - rewrite Vs in H. discriminate H.
  - (* star *) apply andb_true_iff in H as [_ H]. destruct table; [reflexivity..|discriminate].
  - (* parameter *) apply andb_true_iff in H as [H _]. cbn [unvar]. rewrite Hbs.
    destruct (mem name bs) eqn:B; cbn [subst].
    + now rewrite orb_true_r.
    + rewrite orb_false_r. now destruct (mem name ws).
  - (* lambda *) cbn [unvar subst]. apply andb_true_iff in H as [_ H].
    rewrite (IH e) with (bs' := vars ++ bs'); [reflexivity| now left | | now apply E | |].
    + cbn [scope]. destruct vars; [exact V0 | discriminate].
    + intro n. rewrite !mem_app, Hbs. destruct (mem n vars), (mem n ws); reflexivity.
    + intros n Hn. cbn [scope]. rewrite mem_app, Hws by exact Hn. apply orb_true_r.
  - (* unary *) cbn [unvar subst]. rewrite K; [reflexivity | now left |]. apply E.
    destruct op; cbn in H.
    + unfold fits in H. now apply andb_true_iff in H.
    + apply andb_true_iff in H as [H _]. unfold fits in H. now apply andb_true_iff in H.
    + destruct e; try reflexivity; try discriminate H.
    + unfold fits in H. now apply andb_true_iff in H.
  - (* binary *) apply andb_true_iff in H as [H1 H2]. unfold fits in H1, H2.
    apply andb_true_iff in H1 as [H1 _]. apply andb_true_iff in H2 as [H2 _].
    cbn [unvar subst]. rewrite !K by (cbn; auto). reflexivity.
  - (* between *) rewrite !andb_true_iff in H. unfold fits in H. rewrite !andb_true_iff in H.
    destruct H as [[[H1 _] [H2 _]] [H3 _]].
    cbn [unvar subst]. rewrite !K by (cbn; auto). reflexivity.
  - (* array *) apply andb_true_iff in H as [_ H]. rewrite forallb_forall in H.
    cbn [unvar subst]. rewrite (each_all _ _ (unvar bs')) by auto. reflexivity.
  - rewrite Vs in H. discriminate H.
  - (* in list *) rewrite !andb_true_iff in H. unfold fits in H. rewrite !andb_true_iff, forallb_forall in H.
    destruct H as [[[H1 _] _] H]. cbn [unvar subst]. rewrite K by (cbn; auto). cbn [bind].
    rewrite (each_all _ _ (unvar bs')) by (intros; apply K; cbn; auto). reflexivity.
  - (* like *) rewrite !andb_true_iff in H. unfold fits in H. rewrite !andb_true_iff in H.
    destruct H as [[[H1 _] [H2 _]] H3]. cbn [unvar subst]. rewrite !K by (cbn; auto). cbn [bind].
    rewrite (opt_all_map _ _ (unvar bs')); [reflexivity|]. intros a Ha. apply K; [cbn; auto|].
    destruct esc as [x|]; [|contradiction]. destruct Ha as [<-|[]]. cbn in H3. apply E. now apply andb_true_iff in H3.
  - reflexivity.
  - (* row *) apply andb_true_iff in H as [_ H]. rewrite forallb_forall in H.
    cbn [unvar subst]. rewrite (each_all _ _ (unvar bs')) by auto. reflexivity.
  - (* cast *) apply andb_true_iff in H as [H _].
    cbn [unvar subst]. rewrite K by (cbn; auto). reflexivity.
  - (* subscript *) rewrite !andb_true_iff in H. destruct H as [[[H1 _] H2] _].
    cbn [unvar subst]. rewrite !K by (cbn; auto). reflexivity.
  - (* case *) rewrite !andb_true_iff, forallb_forall in H. destruct H as [[[_ H1] H2] H3].
    cbn [unvar subst].
    rewrite (each_all _ _ (fun cv : node * node => let '(c, x) := cv in (unvar bs' c, unvar bs' x))).
    2:{ intros [c x] Hx. destruct (case_kids _ _ _ Hx). specialize (H1 _ Hx). apply andb_true_iff in H1 as [A B].
        rewrite !K by (rewrite ?in_app_iff; auto). reflexivity. }
    cbn [bind]. rewrite (opt_all_map _ _ (unvar bs')).
    2:{ intros a Ha. apply K; [rewrite !in_app_iff; auto|]. destruct else_; [|contradiction].
        destruct Ha as [<-|[]]. now apply E. }
    cbn [bind]. rewrite (opt_all_map _ _ (unvar bs')).
    2:{ intros a Ha. apply K; [rewrite !in_app_iff; auto|]. destruct value; [|contradiction].
        destruct Ha as [<-|[]]. now apply E. }
    reflexivity.
  - (* function *)
    assert (HA : forallb is_item args = true /\ forallb is_expr (fopts_kids fo) = true).
    { assert (G : forall l, forallb is_expr l = true -> forallb is_item l = true).
      { intros l. rewrite !forallb_forall. intros Hl x Hx. now apply E, Hl. }
      assert (F : (registered en f
           && (if fn_bare f then negb (nonempty args) && fopts_empty fo
               else negb (fn_special f) && forallb is_expr args && fopts_good fo
                    && match f with
                       | FFromUnixtime => negb (length args =? 1)%nat
                       | FApproxPercentile => negb (length args =? 3)%nat
                       | _ => true
                       end))%bool = true -> forallb is_item args = true /\ forallb is_expr (fopts_kids fo) = true).
      { intros [_ F]%andb_true_iff. destruct (fn_bare f).
        - apply andb_true_iff in F as [Fa Ff]. destruct args; [|discriminate].
          destruct fo as [[|] [|] [|] []]; try discriminate. auto.
        - unfold fopts_good in F. rewrite !andb_true_iff in F. destruct F as [[[_ F] [[F2 _] _]] _]. auto. }
      destruct f; try (apply F; exact H).
      destruct args as [|a l]; [apply F; exact H|]. destruct a; try (apply F; exact H).
      destruct table; try (apply F; exact H). destruct l; try (apply F; exact H).
      apply andb_true_iff in H as [_ H]. unfold fopts_good in H.
      rewrite !andb_true_iff in H. destruct H as [[H _] _]. auto. }
    destruct HA as [HA HF]. rewrite forallb_forall in HA, HF.
    cbn [unvar subst]. rewrite (each_all _ _ (unvar bs')) by (intros; apply K; rewrite ?in_app_iff; auto).
    cbn [bind]. rewrite (fopts_all _ _ (unvar bs')) by (intros; apply K; rewrite ?in_app_iff; auto). reflexivity.
  - reflexivity.
  - (* listagg *) rewrite !andb_true_iff, forallb_forall in H. destruct H as [[[H1 H2] _] _].
    cbn [unvar subst]. rewrite K by (cbn; auto). cbn [bind].
    rewrite (orders_all _ _ (unvar bs')); [reflexivity|]. intros x Hx. apply K; [now right|].
    apply in_map_iff in Hx as (o & <- & Ho). apply E. now apply H2.
Qed.
