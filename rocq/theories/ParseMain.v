(** Reading back the tokens of every object of the fragment of Good.v. *)
From Coq Require Import String Ascii List ZArith NArith Bool Arith Lia.
From Verif Require Import PyStr Types TypeFacts Inference InferenceFacts StrFacts Lexer LexFacts TypeParser
  TypeRoundTrip Functions FunctionFacts Ast Sql Tokens ReadsFacts Parser
  ParseBase ParseParts ParseExpr ParsePrim ParseForms ParseRel ParseQuery Good Unvar.
Import ListNotations.
Open Scope nat_scope.
Open Scope string_scope.
Open Scope list_scope.

(** * Texts of parts as texts of mapped parts *)
Lemma order_toks_map {A} (f : A -> list token) x : order_toks f x = order_text (order_fmap f x).
Proof. now destruct x. Qed.
Lemma orders_toks_map {A} (f : A -> list token) l : orders_toks f l = orders_text (map (order_fmap f) l).
Proof.
  destruct l as [|x l]; [reflexivity|]. unfold orders_text, orders_toks. cbn [map].
  rewrite order_toks_map, map_map. unfold order_text.
  now rewrite (map_ext (order_toks f) (fun x => order_toks (fun t => t) (order_fmap f x))) by (intros []; reflexivity).
Qed.
Lemma bound_toks_map {A} (f : A -> list token) x : bound_toks f x = bound_text (bound_fmap f x).
Proof. now destruct x. Qed.
Lemma window_toks_map {A} (f : A -> list token) x : window_toks f x = window_text (window_fmap f x).
Proof.
  destruct x as [p ob ps fr s e]. unfold window_text. cbn [window_toks window_fmap].
  rewrite !(bound_toks_map f), (orders_toks_map f). destruct ps as [|x ps]; [reflexivity|].
  cbn [map]. rewrite map_id. reflexivity.
Qed.
Lemma fopts_toks_map {A} (f : A -> list token) x : fopts_toks f x = fopts_text (fopts_fmap f x).
Proof.
  destruct x as [ob fi wi ig]. unfold fopts_text. cbn [fopts_toks fopts_fmap].
  destruct fi, wi as [w|]; cbn [option_map filter_toks over_toks]; rewrite ?(window_toks_map f); reflexivity.
Qed.
Lemma call_toks_map {A} (f : A -> list token) name args x :
  call_toks f name args x = lex name ++ args_text (map f args) (fopts_fmap f x).
Proof.
  unfold call_toks, args_text. rewrite (fopts_toks_map f), (orders_toks_map f).
  now destruct x.
Qed.
Definition group_fmap {A B} (f : A -> B) (g : group A) : group B :=
  match g with
  | GSet l => GSet (map f l)
  | GSets ll => GSets (map (map f) ll)
  | GCube l => GCube (map f l)
  | GRollup l => GRollup (map f l)
  end.
Definition groupby_fmap {A B} (f : A -> B) (g : groupby A) : groupby B :=
  mkG (map (group_fmap f) (g_groups g)) (g_distinct g).
Lemma set_toks_map {A} (f : A -> list token) l : set_toks f l = gset_text (map f l).
Proof.
  destruct l as [|a [|b l]]; try reflexivity. unfold gset_text, set_toks. cbn [map]. now rewrite map_id.
Qed.
Lemma group_toks_map {A} (f : A -> list token) g : group_toks f g = group_text (group_fmap f g).
Proof.
  destruct g as [l|ll|l|l]; unfold group_text; cbn [group_toks group_fmap]; rewrite ?map_id; try reflexivity.
  - apply set_toks_map.
  - rewrite map_map. now rewrite (map_ext (set_toks f) (fun x => set_toks (fun t => t) (map f x))) by (intro; apply set_toks_map).
Qed.
Lemma groupby_toks_map {A} (f : A -> list token) g : groupby_toks f g = groupby_text (groupby_fmap f g).
Proof.
  destruct g as [gs d]. unfold groupby_text, groupby_fmap. cbn [groupby_toks g_groups g_distinct].
  rewrite map_map. now rewrite (map_ext (group_toks f) (fun x => group_toks (fun t => t) (group_fmap f x))) by (intro; apply group_toks_map).
Qed.

(** * Relating parts to their tokens *)
Lemma Forall2_map {A B C} (R : B -> C -> Prop) (f : A -> B) (g : A -> C) l :
  (forall x, In x l -> R (f x) (g x)) -> Forall2 R (map f l) (map g l).
Proof.
  induction l as [|a l IH]; intro H; [constructor|]. cbn [map]. constructor; [apply H; now left|].
  apply IH. intros x Hx. apply H. now right.
Qed.
Lemma opt_rel_map {A B C} (R : B -> C -> Prop) (f : A -> B) (g : A -> C) x :
  (forall a, In a (opt_kids x) -> R (f a) (g a)) -> opt_rel R (option_map f x) (option_map g x).
Proof. destruct x as [a|]; intro H; cbn; [apply H; now left | exact I]. Qed.
Lemma orders_rel_map {A B C} (R : B -> C -> Prop) (f : A -> B) (g : A -> C) l :
  (forall x, In x (map o_value l) -> R (f x) (g x)) ->
  Forall2 (order_rel R) (map (order_fmap f) l) (map (order_fmap g) l).
Proof.
  intro H. apply Forall2_map. intros [v d n] Hx. split; [|auto]. cbn. apply H. now apply (in_map o_value) in Hx.
Qed.
Lemma bound_rel_map {A B C} (R : B -> C -> Prop) (f : A -> B) (g : A -> C) x :
  (forall a, In a (bound_kids x) -> R (f a) (g a)) -> bound_rel R (bound_fmap f x) (bound_fmap g x).
Proof. destruct x; intro H; cbn; auto. split; [reflexivity|]. apply H. now left. Qed.
Lemma window_ex_map en f w :
  (forall a, In a (window_kids w) -> Exo en (f a) (toks a)) -> opt_all plain (w_parent w) = true ->
  window_ex en (window_fmap f w) (window_fmap toks w).
Proof.
  destruct w as [p ob ps fr s e]. cbn [window_kids window_fmap w_parent]. intros H P.
  constructor; cbn; auto.
  - destruct p; [exact P | exact I].
  - apply orders_rel_map. intros x Hx. apply H. rewrite !in_app_iff. auto.
  - apply Forall2_map. intros x Hx. apply H. rewrite !in_app_iff. auto.
  - apply bound_rel_map. intros x Hx. apply H. rewrite !in_app_iff. auto.
  - apply bound_rel_map. intros x Hx. apply H. rewrite !in_app_iff. auto.
Qed.
Lemma fopts_ex_map en f x :
  (forall a, In a (fopts_kids x) -> Exo en (f a) (toks a)) -> fopts_good x = true ->
  fopts_ex en (fopts_fmap f x) (fopts_fmap toks x).
Proof.
  destruct x as [ob fi wi ig]. unfold fopts_good. rewrite !andb_true_iff. cbn [fopts_kids fopts_fmap fo_window fo_ignore].
  intros H [[_ W] G]. constructor; cbn [fo_orderby fo_filter fo_window fo_ignore]; auto.
  - apply orders_rel_map. intros x Hx. apply H. rewrite !in_app_iff. auto.
  - apply opt_rel_map. intros x Hx. apply H. rewrite !in_app_iff. auto.
  - destruct wi as [w|]; [|exact I]. cbn. cbn in W. unfold window_good in W. apply andb_true_iff in W as [W _].
    apply window_ex_map; [|exact W]. intros x Hx. apply H. rewrite !in_app_iff. auto.
  - intros ->. destruct wi; [discriminate|discriminate G].
Qed.

(** * Typing *)
Lemma expr_typed e : is_expr e = true -> (exists x, check e = Ok x) -> typed e.
Proof.
  intros He (x & Hx). unfold typed.
  assert (S : exists t, x = Some t).
  { destruct e; try discriminate He; cbn [check] in Hx;
      repeat match type of Hx with
             | bind ?m _ = Ok _ => destruct m; cbn [bind] in Hx; [|discriminate]
             | some ?m = Ok _ => unfold some in Hx; destruct m; cbn [bind] in Hx; [|discriminate]
             | (if ?b then _ else _) = Ok _ => destruct b; [try discriminate|try discriminate]
             | match ?l with [] => _ | _ => _ end = Ok _ => destruct l; [try discriminate|try discriminate]
             end; try (injection Hx as <-; eauto; fail).
    destruct f; try discriminate; unfold some in Hx;
      match type of Hx with bind ?m _ = _ => destruct m; cbn [bind] in Hx; [injection Hx as <-; eauto|discriminate] end. }
  destruct S as (t & ->). exists t. rewrite Hx. now destruct e.
Qed.
Lemma good_checked en vs e : good en vs e -> exists x, check e = Ok x.
Proof.
  intros [vs' e' H _]. unfold good_here in H. apply andb_true_iff in H as [H _].
  destruct (check e') as [x|]; [eauto|discriminate].
Qed.
Lemma unvar_typed en vs e bs : good en vs e -> is_expr e = true -> typed (unvar bs e).
Proof.
  intros G He. apply expr_typed; [now rewrite unvar_expr|].
  rewrite (check_unvar _ _ _ G). now apply good_checked in G.
Qed.

(** * Operands *)
Lemma cat_most e : cat e <= 9.
Proof. destruct e; cbn [cat]; try lia; destruct op; try lia; destruct (negatable _); lia. Qed.
Lemma operand en need cur left x u :
  need <= 9 -> fits need cur left x = true -> Ex en (cat x) u (toks x) ->
  exists c, need <= c /\ Ex en c u (ptoks cur left x).
Proof.
  unfold fits, ptoks. intros Hn [_ H]%andb_true_iff E. destruct (needs_parens cur left x).
  - exists 9. split; [exact Hn | apply Ex_paren with (cat x); [exact E | apply cat_most]].
  - cbn in H. apply Nat.leb_le in H. exists (cat x). auto.
Qed.
Lemma fits_expr need cur left x : fits need cur left x = true -> is_expr x = true.
Proof. unfold fits. now intros [H _]%andb_true_iff. Qed.

(** * Literals *)
Lemma digits_split a b : str_forall is_digit a = true -> split_dot (a ++ String "."%char b)%string = (a, Some b).
Proof.
  induction a as [|c a IH]; [reflexivity|]. cbn [str_forall append split_dot]. intros [Hc Ha]%andb_true_iff.
  rewrite IH by exact Ha. destruct (Ascii.eqb_spec c "."%char) as [->|]; [discriminate Hc|]. reflexivity.
Qed.
Lemma dec_of_str d : dec_plain d = true -> dneg d = false -> dec_of_text (dec_str d) = d.
Proof.
  intros H N. destruct (dec_str_form d H) as (a & b & E & _ & Ha & _ & Hc & He). rewrite N in E.
  cbn [append] in E. rewrite E. unfold dec_of_text.
  change ("." ++ b)%string with (String "."%char b). rewrite digits_split by exact Ha.
  rewrite Hc, He, Z.opp_involutive. destruct d as [n c e]. cbn in *. now subst.
Qed.
Lemma dec_plain_abs d : dec_plain d = true -> dec_plain (mkDec false (dcoef d) (dexp d)) = true.
Proof.
  intro H. pose proof (dec_str_form d H) as (a & b & E & _). pose proof (dec_str_abs d _ E) as E'.
  unfold dec_plain in *. rewrite E, has_char_app in H. rewrite E'. cbn [dexp].
  apply andb_true_iff in H as [-> H]. rewrite negb_true_iff, orb_false_iff in H. now destruct H as [_ ->].
Qed.
Lemma Z_of_str z : (0 <= z)%Z -> Z.of_N (N_of_str (str_of_Z z)) = z.
Proof. intro H. rewrite str_of_Z_nonneg, N_of_str_of_N by exact H. lia. Qed.

Lemma Ex_lit en l t : lit_good l t = true -> typed (NLit l t) -> Ex en 9 (NLit l t) (lit_toks l).
Proof.
  unfold lit_good. intros [Ht Hl]%andb_true_iff T.
  destruct (lit_type l) as [t'|] eqn:E; [|discriminate]. apply dtype_eqb_eq in Ht. subst t'.
  destruct l as [|b|z|d|s|r]; cbn [lit_type lit_toks] in *.
  - injection E as <-. apply Ex_null.
  - injection E as <-. apply Ex_bool.
  - injection E as <-. unfold int_toks, Ztok. destruct (Z.ltb_spec z 0).
    + apply Ex_negative; [reflexivity| |exact T]. cbn [v_number]. rewrite Z_of_str by lia.
      rewrite Z.opp_involutive. now rewrite (typed_mk _ T).
    + apply Ex_number; [reflexivity| |exact T]. cbn [v_number]. rewrite Z_of_str by lia.
      now rewrite (typed_mk _ T).
  - apply andb_true_iff in Hl as [Hp Hn]. unfold dec_toks. destruct (dneg d) eqn:N.
    + cbn [negb orb] in Hn. apply andb_true_iff in Hn as [Hz Hd].
      apply Ex_negative; [reflexivity| |exact T]. cbn [v_number].
      rewrite dec_of_str by (now apply dec_plain_abs || reflexivity). rewrite E. cbn [bind].
      assert (dec_neg (mkDec false (dcoef d) (dexp d)) = d) as ->.
      { unfold dec_neg, round_ctx. cbn [dcoef dneg dexp]. apply negb_true_iff in Hz. rewrite Hz, Hd.
        destruct d; cbn in *. now subst. }
      now rewrite (typed_mk _ T).
    + apply Ex_number; [reflexivity| |exact T]. cbn [v_number]. rewrite dec_of_str by assumption.
      assert (mkDec false (dcoef d) (dexp d) = d) as D by (destruct d; cbn in *; now subst).
      rewrite D in E. rewrite E. cbn [bind]. now rewrite (typed_mk _ T).
  - injection E as <-. apply Ex_string; [|exact T]. now apply strip_inner.
  - discriminate.
Qed.

(** * Predicates, plain and negated *)
Definition eq_ne (e : node) : bool := match e with NBin (BEq | BNe) _ _ => true | _ => false end.
Definition kid_ex (en : env) (e : node) : Prop :=
  forall x, In x (kids e) -> is_expr x = true -> Ex en (cat x) (unvar [] x) (toks x).

Lemma kid_operand en e x need cur left :
  kid_ex en e -> In x (kids e) -> need <= 9 -> fits need cur left x = true ->
  exists c, need <= c /\ Ex en c (unvar [] x) (ptoks cur left x).
Proof. intros K Hx Hn F. apply operand; auto. apply K; [exact Hx|]. now apply fits_expr in F. Qed.
Lemma kid_exs en e l : kid_ex en e -> (forall x, In x l -> In x (kids e)) -> forallb is_expr l = true ->
  Exs en (map (unvar []) l) (map toks l).
Proof.
  intros K H F. rewrite forallb_forall in F. apply Forall2_map. intros x Hx. exists (cat x). apply K; auto.
Qed.
Lemma kid_exo en e x : kid_ex en e -> In x (kids e) -> is_expr x = true -> Exo en (unvar [] x) (toks x).
Proof. intros K H F. exists (cat x). now apply K. Qed.

Lemma main_pred en vs e (neg : bool) :
  good_here en vs e = true -> kid_ex en e ->
  (forall x, In x (kids e) -> is_q x = true -> Rq en x (toks x)) -> typed (unvar [] e) ->
  negatable e = true -> eq_ne e = false ->
  Ex en 4 (if neg then NUn UNot (unvar [] e) else unvar [] e) (toks_n neg e).
Proof.
  unfold good_here. intros [_ H]%andb_true_iff K Q T N Q0.
  destruct e; try discriminate N.
  - (* IS NULL *) destruct op; try discriminate N.
    destruct (kid_operand en _ e 5 (Some 3) true K) as (c & Hc & E); [now left|lia|exact H|].
    pose proof (Ex_isnull en neg c _ _ E Hc) as R.
    destruct neg; exact R.
  - destruct op; try discriminate N; try discriminate Q0.
    apply andb_true_iff in H as [H1 H2].
    destruct (kid_operand en _ e1 5 None true K) as (c1 & Hc1 & E1); [now left|lia|exact H1|].
    destruct (kid_operand en _ e2 5 None false K) as (c2 & Hc2 & E2); [now (right; left)|lia|exact H2|].
    pose proof (Ex_distinct en neg c1 c2 _ _ _ _ E1 E2 Hc1 Hc2 T) as R.
    destruct neg; exact R.
  - rewrite !andb_true_iff in H. destruct H as [[H1 H2] H3].
    destruct (kid_operand en _ e1 5 (Some 3) true K) as (c1 & Hc1 & E1); [now left|lia|exact H1|].
    destruct (kid_operand en _ e2 5 (Some 3) true K) as (c2 & Hc2 & E2); [now (right; left)|lia|exact H2|].
    destruct (kid_operand en _ e3 5 (Some 3) true K) as (c3 & Hc3 & E3); [now (right; right; left)|lia|exact H3|].
    exact (Ex_between en neg c1 c2 c3 _ _ _ _ _ _ E1 E2 E3 Hc1 Hc2 Hc3 T).
  - rewrite !andb_true_iff in H. destruct H as [[_ H1] H2].
    destruct (kid_operand en _ e1 5 (Some 3) true K) as (c1 & Hc1 & E1); [now left|lia|exact H1|].
    exact (Ex_inquery en neg c1 _ _ _ _ E1 Hc1 (Q e2 ltac:(now right; left) H2) T).
  - rewrite !andb_true_iff in H. destruct H as [[H1 H2] H3].
    destruct (kid_operand en _ e 5 (Some 3) true K) as (c1 & Hc1 & E1); [now left|lia|exact H1|].
    refine (Ex_inlist en neg c1 _ _ _ _ E1 Hc1 (kid_exs en _ vs0 K _ H3) _ T).
    + intros x Hx. now right.
    + destruct vs0; [discriminate H2|discriminate].
  - rewrite !andb_true_iff in H. destruct H as [[H1 H2] H3].
    destruct (kid_operand en _ e1 5 (Some 3) true K) as (c1 & Hc1 & E1); [now left|lia|exact H1|].
    destruct (kid_operand en _ e2 5 (Some 3) true K) as (c2 & Hc2 & E2); [now (right; left)|lia|exact H2|].
    pose proof (Ex_like en neg c1 c2 _ _ _ _ (option_map (unvar []) esc) (option_map toks esc) E1 E2 Hc1 Hc2) as R.
    cbn [unvar] in *.
    assert (X : opt_rel (fun e ts => exists c, Ex en c e ts /\ 5 <= c) (option_map (unvar []) esc) (option_map toks esc)).
    { apply opt_rel_map. intros a Ha. destruct esc as [x|]; [|contradiction]. destruct Ha as [<-|[]].
      cbn [opt_all] in H3. apply andb_true_iff in H3 as [Hx Hc]. apply Nat.leb_le in Hc.
      exists (cat x). split; [apply K; cbn; auto | exact Hc]. }
    specialize (R X T). destruct esc; exact R.
Qed.

(** * Expressions *)
Lemma registered_ok en f : registered en f = true -> names_to_functions en (fn_name f) = Some f.
Proof.
  unfold registered. destruct (names_to_functions en (fn_name f)) as [g|]; [|discriminate].
  intros ->%String.eqb_eq%fn_name_inj. reflexivity.
Qed.
Lemma words_toks l : forallb plain l = true -> commas (map (fun c => [word_token c]) l) = words l.
Proof. apply words_plain. Qed.
Lemma cat_pred e : negatable e = true -> cat e = 4.
Proof. destruct e; try discriminate; [destruct op|destruct op|..]; try discriminate; reflexivity. Qed.

Lemma main_expr en vs e :
  good_here en vs e = true -> (forall x, In x (kids e) -> good en (scope vs e) x) -> kid_ex en e ->
  (forall x, In x (kids e) -> negatable x = true -> eq_ne x = false ->
     Ex en 4 (NUn UNot (unvar [] x)) (toks_n true x)) ->
  (forall x, In x (kids e) -> is_q x = true -> Rq en x (toks x)) -> typed (unvar [] e) ->
  is_expr e = true -> Ex en (cat e) (unvar [] e) (toks e).
Proof.
  intros H G K Kn Q T He.
  destruct (negatable e && negb (eq_ne e))%bool eqn:Np.
  { apply andb_true_iff in Np as [Np Ne]. apply negb_true_iff in Ne. rewrite cat_pred by exact Np.
    exact (main_pred en vs e false H K Q T Np Ne). }
  unfold good_here in H. apply andb_true_iff in H as [_ H].
  destruct e; try discriminate He; try discriminate Np.
  - (* literal *) now apply Ex_lit.
  - (* column *)
    rewrite !andb_true_iff in H. destruct H as [[Ht Hn] H]. apply dtype_eqb_eq in Ht. subst t.
    destruct table as [|s|]; [| |discriminate].
    + apply Ex_field. right. eexists. split; [reflexivity|]. now apply strip_inner.
    + apply andb_true_iff in H as [H0 H]. destruct s as [|c s]; [discriminate H0|].
      apply Ex_qualified; right; eexists; (split; [reflexivity|]); now apply strip_inner.
  - (* parameter *)
    apply andb_true_iff in H as [_ H]. cbn [unvar]. change (mem name []) with false. cbn iota.
    change (toks (NVar name)) with [word_token name]. rewrite plain_token by exact H.
    apply Ex_field. now left.
  - (* lambda *)
    rewrite !andb_true_iff in H. destruct H as [[Hv Hp] Hb].
    pose proof (K e (or_introl eq_refl) Hb) as E. pose proof (G e (or_introl eq_refl)) as Ge. cbn [scope] in Ge.
    assert (S : subst vars (unvar [] e) = Ok (unvar vars e)).
    { apply (subst_unvar en (vars ++ vs)); auto.
      - destruct vars; [discriminate Hv|discriminate].
      - unfold is_item. now rewrite Hb.
      - intro n. now rewrite orb_false_r.
      - intros n Hn. now rewrite mem_app, Hn. }
    cbn [unvar] in T |- *. rewrite app_nil_r in T |- *.
    destruct vars as [|n [|m l]]; [discriminate Hv| |].
    + cbn [forallb] in Hp. rewrite andb_true_r in Hp.
      change (toks (NLambda [n] e)) with (word_token n :: TSym "->" :: toks e).
      rewrite plain_token by exact Hp. now apply (Ex_lambda1 en n (cat e) (unvar [] e)).
    + change (toks (NLambda (n :: m :: l) e))
        with (paren (commas (map (fun c => [word_token c]) (n :: m :: l))) ++ TSym "->" :: toks e).
      rewrite words_plain by exact Hp. now apply (Ex_lambda en _ (cat e) (unvar [] e)).
  - (* unary *)
    destruct op; try discriminate Np.
    + destruct (kid_operand en _ e 8 (Some 8) true K) as (c & Hc & E); [now left|lia|exact H|].
      exact (Ex_pos en c _ _ E Hc T).
    + apply andb_true_iff in H as [H Hn].
      destruct (kid_operand en _ e 8 (Some 8) true K) as (c & Hc & E); [now left|lia|exact H|].
      exact (Ex_neg en c _ _ E Hc Hn T).
    + cbn [cat]. change (toks (NUn UNot e)) with (if negatable e then toks_n true e else Tokens.K "NOT" :: ptoks (Some 2) true e).
      destruct (negatable e) eqn:Ne.
      * apply (Kn e); [now left | exact Ne |].
        destruct e; try reflexivity. destruct op; try reflexivity; discriminate H.
      * destruct (kid_operand en _ e 3 (Some 2) true K) as (c & Hc & E); [now left|lia|exact H|].
        exact (Ex_not en c _ _ E Hc T).
  - (* binary *)
    apply andb_true_iff in H as [H1 H2].
    assert (L1 : fst (needs op) <= 9) by (destruct op; cbn; lia).
    assert (L2 : snd (needs op) <= 9) by (destruct op; cbn; lia).
    destruct (kid_operand en _ e1 _ (binop_prec op) true K (or_introl eq_refl) L1 H1) as (c1 & Hc1 & E1).
    destruct (kid_operand en _ e2 _ (binop_prec op) false K (or_intror (or_introl eq_refl)) L2 H2) as (c2 & Hc2 & E2).
    change (toks (NBin op e1 e2)) with (ptoks (binop_prec op) true e1 ++ binop_toks false op ++ ptoks (binop_prec op) false e2).
    destruct op; cbn [needs fst snd] in Hc1, Hc2; cbn [binop_toks app cat]; try discriminate Np;
      try (eapply (Ex_cmp en); [reflexivity|eauto..]; fail).
    + exact (Ex_vop en 2 BAdd "+" c1 c2 _ _ _ _ eq_refl E1 E2 Hc1 Hc2 T).
    + exact (Ex_vop en 2 BMinus "-" c1 c2 _ _ _ _ eq_refl E1 E2 Hc1 Hc2 T).
    + exact (Ex_vop en 3 BMul "*" c1 c2 _ _ _ _ eq_refl E1 E2 Hc1 Hc2 T).
    + exact (Ex_vop en 3 BDiv "/" c1 c2 _ _ _ _ eq_refl E1 E2 Hc1 Hc2 T).
    + exact (Ex_vop en 3 BMod "%" c1 c2 _ _ _ _ eq_refl E1 E2 Hc1 Hc2 T).
    + exact (Ex_and en c1 c2 _ _ _ _ E1 E2 Hc1 Hc2 T).
    + exact (Ex_or en c1 c2 _ _ _ _ E1 E2 Hc1 Hc2 T).
  - (* array *)
    apply andb_true_iff in H as [Hn H].
    refine (Ex_array en _ _ (kid_exs en _ vs0 K _ H) _ T); [auto|].
    destruct vs0; [discriminate Hn|discriminate].
  - (* type constructor *)
    apply andb_true_iff in H as [Hi H]. unfold ctor_name in H. apply andb_true_iff in H as [Hu H].
    apply String.eqb_eq in Hu. change (toks (NTypeCtor value type_name)) with [word_token type_name; sid value].
    apply Ex_typector; [|exact Hu | now apply strip_inner | exact T].
    destruct (word_token type_name) as [k m| | | | | | |m| | | | | ]; try discriminate H.
    + apply andb_true_iff in H as [->%String.eqb_eq H]. right. eauto.
    + apply String.eqb_eq in H. subst. now left.
  - (* row *)
    apply andb_true_iff in H as [Hn H]. apply Nat.leb_le in Hn.
    destruct vs0 as [|a [|b l]]; cbn [length] in Hn; try lia.
    exact (Ex_row en _ _ _ _ (kid_exs en _ (a :: b :: l) K (fun x Hx => Hx) H) T).
  - (* cast *)
    apply andb_true_iff in H as [H Ht].
    exact (Ex_cast en try_ _ _ _ t (K e (or_introl eq_refl) H) Ht T).
  - (* subscript *)
    rewrite !andb_true_iff in H. destruct H as [[[H1 H2] H3] H4].
    apply Nat.eqb_eq in H2. apply Nat.leb_le in H4.
    pose proof (K e1 (or_introl eq_refl) H1) as E1. rewrite H2 in E1.
    exact (Ex_subscript en 9 _ _ _ _ _ (le_n 9) E1 (K e2 (or_intror (or_introl eq_refl)) H3) H4 T).
  - (* case *)
    rewrite !andb_true_iff, forallb_forall in H. destruct H as [[[Hn H1] H2] H3].
    pose proof (Ex_case en (option_map (unvar []) value) (option_map toks value)
      (map (fun cv : node * node => let '(c, x) := cv in (unvar [] c, unvar [] x)) branches)
      (map (fun cv : node * node => (toks (fst cv), toks (snd cv))) branches)
      (option_map (unvar []) else_) (option_map toks else_)) as R.
    assert (A1 : opt_rel (Exo en) (option_map (unvar []) value) (option_map toks value)).
    { apply opt_rel_map. intros a Ha. apply (kid_exo en _ a K); [cbn [kids]; rewrite !in_app_iff; auto|].
      destruct value; [|contradiction]. destruct Ha as [<-|[]]. exact H3. }
    assert (A2 : opt_rel (Exo en) (option_map (unvar []) else_) (option_map toks else_)).
    { apply opt_rel_map. intros a Ha. apply (kid_exo en _ a K); [cbn [kids]; rewrite !in_app_iff; auto|].
      destruct else_; [|contradiction]. destruct Ha as [<-|[]]. exact H2. }
    assert (A3 : Forall2 (when_rel en)
       (map (fun cv : node * node => let '(c, x) := cv in (unvar [] c, unvar [] x)) branches)
       (map (fun cv : node * node => (toks (fst cv), toks (snd cv))) branches)).
    { apply Forall2_map. intros [c x] Hx. destruct (case_kids _ _ _ Hx). specialize (H1 _ Hx).
      apply andb_true_iff in H1 as [Hc Hx']. split; cbn [fst snd]; apply (kid_exo en _ _ K); auto;
        cbn [kids]; rewrite !in_app_iff; auto. }
    specialize (R A1 A3). cbn [unvar] in T |- *.
    assert (N : map (fun cv : node * node => let '(c, x) := cv in (unvar [] c, unvar [] x)) branches <> [])
      by (destruct branches; [discriminate Hn|discriminate]).
    specialize (R N A2 T).
    assert (E : toks (NCase branches else_ value)
      = Tokens.K "CASE" :: match option_map toks value with None => [] | Some x => x end
        ++ whens_text (map (fun cv : node * node => (toks (fst cv), toks (snd cv))) branches)
        ++ match option_map toks else_ with None => [] | Some x => Tokens.K "ELSE" :: x end ++ [Tokens.K "END"]).
    { unfold whens_text. rewrite map_map.
      rewrite (map_ext _ (fun cv : node * node => let '(c, x) := cv in Tokens.K "WHEN" :: toks c ++ Tokens.K "THEN" :: toks x))
        by (intros []; reflexivity).
      destruct value, else_; reflexivity. }
    rewrite E. exact R.
  - (* function *)
    assert (F : (registered en f
           && (if fn_bare f then negb (nonempty args) && fopts_empty fo
               else negb (fn_special f) && forallb is_expr args && fopts_good fo
                    && match f with
                       | FFromUnixtime => negb (length args =? 1)%nat
                       | FApproxPercentile => negb (length args =? 3)%nat
                       | _ => true
                       end))%bool = true -> Ex en 9 (unvar [] (NFunc f args fo)) (toks (NFunc f args fo))).
    { intros [Hr F]%andb_true_iff. apply registered_ok in Hr.
      change (toks (NFunc f args fo)) with (if fn_bare f then lex (fn_name f) else call_toks toks (fn_name f) args fo).
      destruct (fn_bare f) eqn:B.
      - apply andb_true_iff in F as [Fa Ff]. destruct args; [|discriminate].
        destruct fo as [[|] [|] [|] []]; try discriminate. now apply Ex_bare.
      - rewrite !andb_true_iff in F. destruct F as [[[Fs Fa] Fo] Ff]. rewrite call_toks_map.
        apply (Ex_call en f (map (unvar []) args) (map toks args) (fopts_fmap (unvar []) fo) (fopts_fmap toks fo)); auto.
        + unfold callable. now rewrite B, Fs.
        + apply (kid_exs en _ _ K); [|exact Fa]. intros x Hx. cbn [kids]. rewrite in_app_iff. auto.
        + apply fopts_ex_map; [|exact Fo]. intros a Ha. apply (kid_exo en _ a K); [cbn [kids]; rewrite in_app_iff; auto|].
          unfold fopts_good in Fo. rewrite !andb_true_iff, forallb_forall in Fo. now apply Fo.
        + intros ->. rewrite map_length. intro L. rewrite L in Ff. discriminate Ff.
        + intros ->. rewrite map_length. intro L. rewrite L in Ff. discriminate Ff. }
    destruct f; try (apply F; exact H).
    destruct args as [|a l]; [apply F; exact H|]. destruct a; try (apply F; exact H).
    destruct table; try (apply F; exact H). destruct l; try (apply F; exact H). clear F.
    apply andb_true_iff in H as [Ht Fo]. apply dtype_eqb_eq in Ht. subst t.
    change (toks (NFunc FCount [NStar TRNone unknown] fo)) with (call_toks toks "COUNT" [NStar TRNone unknown] fo).
    rewrite call_toks_map. cbn [unvar map] in T |- *. apply Ex_count_star; [|exact T].
    apply fopts_ex_map; [|exact Fo]. intros a Ha. apply (kid_exo en _ a K); [cbn [kids]; rewrite in_app_iff; auto|].
    unfold fopts_good in Fo. rewrite !andb_true_iff, forallb_forall in Fo. now apply Fo.
  - (* date and time *)
    rewrite !andb_true_iff in H. destruct H as [[H1 H2] H3]. apply registered_ok in H2. apply Z.leb_le in H3.
    exact (Ex_datetime en f precision H1 H2 H3 T).
  - (* listagg *)
    rewrite !andb_true_iff, forallb_forall in H. destruct H as [[[H1 H2] H3] H4].
    cbn [unvar] in T |- *.
    assert (Hl : map (order_fmap (unvar [])) orderby <> []).
    { destruct orderby; [|discriminate]. intros _. destruct T as (t & T). cbn [wrapped check] in T.
      unfold all_ok in T. cbn [map each bind nonempty py_assert] in T.
      destruct (wrapped (unvar [] e) (check (unvar [] e))); cbn in T; discriminate T. }
    assert (Hob : Forall2 (order_rel (Exo en)) (map (order_fmap (unvar [])) orderby) (map (order_fmap toks) orderby)).
    { apply orders_rel_map. intros x Hx. apply (kid_exo en _ x K); [now right|].
      apply in_map_iff in Hx as (o & <- & Ho). now apply H2. }
    pose (sp := if String.eqb sep " " then None else Some (quote_literal sep)).
    pose (ov := match overflow with None => None | Some (b, s) => Some (b, quote_literal s) end).
    assert (S1 : (match sp with None => " " | Some s => strip squote s end) = sep).
    { unfold sp. destruct (String.eqb_spec sep " ") as [->|]; [reflexivity|].
      apply orb_true_iff in H3 as [H3|H3]; [discriminate H3 || (apply String.eqb_eq in H3; congruence)|].
      now apply strip_inner. }
    assert (S2 : (match ov with None => None | Some (b, s) => Some (b, strip squote s) end) = overflow).
    { unfold ov. destruct overflow as [[b s]|]; [|reflexivity]. cbn in H4. do 2 f_equal. now apply strip_inner. }
    pose proof (Ex_listagg en _ _ sp ov _ _ (kid_exo en _ e K (or_introl eq_refl) H1) Hob Hl) as R.
    rewrite S1, S2 in R. specialize (R T).
    assert (E : toks (NListAgg e sep overflow orderby) =
      Tokens.K "LISTAGG" :: paren (toks e ++ sep_text sp ++ overflow_text ov)
      ++ Tokens.K "WITHIN" :: Tokens.K "GROUP" :: paren (orders_text (map (order_fmap toks) orderby))).
    { rewrite <- orders_toks_map. unfold sp, ov, toks. cbn [toks_n].
      destruct orderby as [|o ob]; [now destruct Hl|].
      destruct (String.eqb sep " "), overflow as [[b s]|]; reflexivity. }
    rewrite E. exact R.
Qed.
