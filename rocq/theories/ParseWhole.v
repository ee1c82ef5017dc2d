(** Queries and relations of the fragment, and the theorem for all objects. *)
From Coq Require Import String Ascii List ZArith NArith Bool Arith Lia.
From Verif Require Import PyStr Types TypeFacts Inference Lexer TypeParser Functions Ast Sql Tokens Parser
  ParseBase ParseParts ParseExpr ParsePrim ParseForms ParseRel ParseQuery Good Unvar ParseMain.
Import ListNotations.
Open Scope nat_scope.
Open Scope string_scope.
Open Scope list_scope.

Definition rtoks (r : node) : list token := rel_toks false r (toks r).
Record Rb (en : env) (vs : list string) (e : node) : Prop := {
  rb_expr : is_expr e = true -> Ex en (cat e) (unvar [] e) (toks e);
  rb_not : negatable e = true -> eq_ne e = false -> Ex en 4 (NUn UNot (unvar [] e)) (toks_n true e);
  rb_item : vs = [] -> is_item e = true -> Si en e (toks e);
  rb_q : is_q e = true -> Rq en e (toks e);
  rb_rel : is_rel e = true -> Rl en (rcat e) e (rtoks e);
  rb_named : named_good e = true ->
    exists q a, e = NAliasedRel q a [] /\ inner dquote a = true /\ Rq en q (toks q) /\ made e }.

(** * Queries *)
Lemma rtoks_q q : is_q q = true -> rtoks q = paren (toks q).
Proof. destruct q; try discriminate; reflexivity. Qed.
Lemma same_map {A B} (R : A -> B -> Prop) (g : A -> B) l :
  (forall x, In x l -> R x (g x)) -> Forall2 R l (map g l).
Proof. intro H. rewrite <- (map_id l) at 1. now apply Forall2_map. Qed.
Lemma same_opt {A B} (R : A -> B -> Prop) (g : A -> B) x :
  (forall a, In a (opt_kids x) -> R a (g a)) -> opt_rel R x (option_map g x).
Proof. destruct x as [a|]; intro H; cbn; [apply H; now left | exact I]. Qed.
Lemma same_orders {A B} (R : A -> B -> Prop) (g : A -> B) l :
  (forall x, In x (map o_value l) -> R x (g x)) -> Forall2 (order_rel R) l (map (order_fmap g) l).
Proof.
  intro H. apply same_map. intros [v d n] Hx. split; [|auto]. cbn. apply H. now apply (in_map o_value) in Hx.
Qed.
Lemma window_id {A} (w : window A) : window_fmap (fun x => x) w = w.
Proof. now apply window_same. Qed.
Lemma same_window en w :
  (forall a, In a (window_kids w) -> Exo en a (toks a)) -> opt_all plain (w_parent w) = true ->
  window_ex en w (window_fmap toks w).
Proof. intros H P. rewrite <- (window_id w) at 1. now apply window_ex_map. Qed.

Lemma count_same k c : opt_all (fun z => (0 <? z)%Z) c = true -> count_toks k c = count_text k c.
Proof. destruct c as [z|]; [|reflexivity]. destruct z; intro H; try discriminate H. reflexivity. Qed.
Lemma count_pos c : opt_all (fun z => (0 <? z)%Z) c = true ->
  match c with None => True | Some z => (0 <= z)%Z end.
Proof. destruct c as [z|]; [|trivial]. cbn [opt_all]. intros H%Z.ltb_lt. lia. Qed.

Definition named_pair (e : node) : string * list token :=
  match e with NAliasedRel q a _ => (a, toks q) | _ => ("", []) end.
Lemma with_same qa : forallb named_good (q_with qa) = true ->
  with_toks toks qa = with_text (map named_pair (q_with qa)).
Proof.
  unfold with_toks. generalize (q_with qa). intros l H. rewrite forallb_forall in H.
  assert (E : map (named_toks toks) l = map named_text (map named_pair l)).
  { rewrite map_map. apply map_ext_in. intros x Hx. specialize (H x Hx).
    destruct x; try discriminate H. destruct cols; [|discriminate H]. cbn in H.
    cbn [named_toks map named_pair]. change (rel_toks false x (toks x)) with (rtoks x).
    rewrite rtoks_q by exact H. reflexivity. }
  destruct l as [|x l]; [reflexivity|]. rewrite E. reflexivity.
Qed.

(** The attributes common to all queries. *)
Lemma query_whole en core tc qa :
  Core en core tc -> bare core -> qattrs_good qa = true ->
  (forall x, In x (q_with qa) -> named_good x = true ->
     exists q a, x = NAliasedRel q a [] /\ inner dquote a = true /\ Rq en q (toks q) /\ made x) ->
  (forall x, In x (map o_value (q_orderby qa)) -> is_expr x = true -> Exo en x (toks x)) ->
  Rq en (with_q qa core) (with_toks toks qa ++ tc ++ constraint_toks toks qa).
Proof.
  intros C B G HN HO. destruct qa as [ws ob off lim]. unfold qattrs_good in G. cbn [q_with q_orderby q_offset q_limit] in *.
  rewrite !andb_true_iff in G. destruct G as [[[G1 G2] G3] G4].
  rewrite with_same by exact G1. cbn [q_with constraint_toks].
  rewrite orders_toks_map, !count_same by assumption.
  apply (Rq_query en ws (map named_pair ws) core tc ob (map (order_fmap toks) ob) off lim); try (apply count_pos; assumption); auto.
  - apply same_map. intros x Hx. rewrite forallb_forall in G1.
    destruct (HN x Hx (G1 x Hx)) as (q & a & -> & Ha & Hq & Hm). exists q. auto.
  - apply same_orders. intros x Hx. apply HO; [exact Hx|]. rewrite forallb_forall in G2.
    apply in_map_iff in Hx as (o & <- & Ho). now apply G2.
Qed.

Lemma set_ex en l : (forall x, In x l -> is_expr x = true -> Exo en x (toks x)) -> set_good l = true ->
  gset_ex en l (map toks l).
Proof.
  unfold set_good. intros H [F P]%andb_true_iff. rewrite forallb_forall in F. split.
  - apply same_map. intros x Hx. apply H; auto.
  - destruct l as [|a [|b l]]; [exact I | exact P | exact I].
Qed.
Lemma group_ex_map en g :
  (forall x, In x (group_kids g) -> is_expr x = true -> Exo en x (toks x)) -> group_good g = true ->
  group_ok valid g = Ok tt -> group_ex en g (group_fmap toks g).
Proof.
  intros H G V. destruct g as [l|ll|l|l]; cbn [group_kids group_good group_fmap group_ex] in *.
  - now apply set_ex.
  - split.
    + rewrite forallb_forall in G. apply same_map. intros l Hl. apply set_ex; [|now apply G].
      intros x Hx. apply H. apply in_concat. eauto.
    + intros ->. discriminate V.
  - rewrite forallb_forall in G. apply same_map. intros x Hx. apply H; auto.
  - rewrite forallb_forall in G. apply same_map. intros x Hx. apply H; auto.
Qed.
Lemma each_in {A B} (f : A -> result B) l bs x : each f l = Ok bs -> In x l -> exists b, f x = Ok b.
Proof.
  revert bs; induction l as [|a l IH]; intros bs H Hx; [contradiction|]. cbn [each] in H.
  destruct (f a) as [b|] eqn:E; [|discriminate]. cbn [bind] in H.
  destruct (each f l) as [r|] eqn:El; [|discriminate]. destruct Hx as [<-|Hx]; eauto.
Qed.
Lemma all_ok_in {A} (f : A -> result unit) l u x : all_ok f l = Ok u -> In x l -> f x = Ok tt.
Proof.
  unfold all_ok. destruct (each f l) as [r|] eqn:E; [|discriminate]. intros _ Hx.
  destruct (each_in f l r x E Hx) as ([] & H). exact H.
Qed.
Lemma groupby_ex_map en g u :
  (forall x, In x (groupby_kids g) -> is_expr x = true -> Exo en x (toks x)) -> groupby_good g = true ->
  groupby_ok valid g = Ok u -> groupby_ex en g (groupby_fmap toks g).
Proof.
  destruct g as [gs d]. unfold groupby_good, groupby_ex, groupby_fmap. cbn [g_groups g_distinct groupby_kids groupby_ok].
  intros H [N G]%andb_true_iff V. rewrite forallb_forall in G. split; [|split; [|reflexivity]].
  - apply same_map. intros x Hx. pose proof (all_ok_in _ _ _ _ V Hx) as Vx. split; [|exact Vx].
    apply group_ex_map; auto. intros y Hy. apply H. apply in_concat. exists (group_kids x).
    split; [now apply in_map | exact Hy].
  - destruct gs; [discriminate N|discriminate].
Qed.

(** A checked query is a checked query without its attributes. *)
Lemma select_made sel fr wh gb hv d ws qa :
  made (NSelect sel fr wh gb hv d ws qa) -> made (NSelect sel fr wh gb hv d ws no_qattrs).
Proof.
  intros (t & H). cbn [check] in H. unfold made. cbn [check].
  repeat match type of H with bind ?m _ = _ => destruct m; cbn [bind] in H |- *; [|discriminate H] end.
  eauto.
Qed.
Lemma values_made l qa : made (NValues l qa) -> made (NValues l no_qattrs).
Proof.
  intros (t & H). cbn [check] in H. unfold made. cbn [check].
  repeat match type of H with bind ?m _ = _ => destruct m; cbn [bind] in H |- *; [|discriminate H] end.
  eauto.
Qed.
Lemma select_groupby sel fr wh gb hv d ws qa :
  made (NSelect sel fr wh gb hv d ws qa) -> opt_ok (groupby_ok valid) gb = Ok tt /\ sel <> [].
Proof.
  intros (t & H). cbn [check] in H.
  match type of H with bind ?m _ = _ => destruct m; cbn [bind] in H; [|discriminate H] end.
  match type of H with bind ?m _ = _ => destruct m; cbn [bind] in H; [|discriminate H] end.
  match type of H with bind ?m _ = _ => destruct m; cbn [bind] in H; [|discriminate H] end.
  change (fun x => let* _ := check x in Ok tt) with valid in H.
  destruct (opt_ok (groupby_ok valid) gb) as [[]|] eqn:E; [|discriminate H]. split; [reflexivity|].
  intros ->. cbn [bind nonempty py_assert] in H.
  repeat match type of H with bind ?m _ = _ => destruct m; cbn [bind] in H; try discriminate H end.
Qed.

Lemma select_core_toks sel fr wh gb hv d ws qa :
  toks (NSelect sel fr wh gb hv d ws qa)
  = with_toks toks qa
    ++ select_text d (map toks sel) (option_map rtoks fr) (option_map toks wh)
         (option_map (groupby_fmap toks) gb) (option_map toks hv)
         (map (fun nw => (fst nw, window_fmap toks (snd nw))) ws)
    ++ constraint_toks toks qa.
Proof.
  transitivity (with_toks toks qa
      ++ Tokens.K "SELECT" :: (if d then [Tokens.K "DISTINCT"] else []) ++ commas (map toks sel)
      ++ opt_toks [Tokens.K "FROM"] rtoks fr ++ opt_toks [Tokens.K "WHERE"] toks wh
      ++ opt_toks [Tokens.K "GROUP"; Tokens.K "BY"] (groupby_toks toks) gb
      ++ opt_toks [Tokens.K "HAVING"] toks hv
      ++ (match ws with
          | [] => []
          | _ => Tokens.K "WINDOW" :: commas (map (fun nw => let '(n, w) := nw in
                     word_token n :: Tokens.K "AS" :: paren (window_toks toks w)) ws)
          end)
      ++ constraint_toks toks qa); [reflexivity|].
  unfold select_text. cbn [app]. rewrite <- !app_assoc.
  do 4 f_equal. f_equal; [now destruct fr|].
  f_equal; [now destruct wh|]. f_equal.
  { destruct gb as [g|]; [|reflexivity]. cbn [opt_toks option_map group_clause app]. now rewrite groupby_toks_map. }
  f_equal; [now destruct hv|]. f_equal.
  destruct ws as [|w ws]; [reflexivity|]. unfold windows_text. cbn [map]. do 2 f_equal.
  change (map (fun nw : string * window node => let '(n, w0) := nw in
      word_token n :: Tokens.K "AS" :: paren (window_toks toks w0)) (w :: ws)
    = map named_window_text (map (fun nw : string * window node => (fst nw, window_fmap toks (snd nw))) (w :: ws))).
  rewrite map_map. apply map_ext. intros [n x]. cbn [fst snd]. unfold named_window_text. cbn [fst snd].
  now rewrite window_toks_map.
Qed.

(** The parts of a SELECT query. *)
Record Parts (en : env) (sel : list node) (fr wh : option node) (gb : option (groupby node)) (hv : option node)
       (ws : list (string * window node)) : Prop := {
  pa_items : Forall2 (Si en) sel (map toks sel);
  pa_some : sel <> [];
  pa_from : opt_rel (fun r ts => exists c, Rl en c r ts) fr (option_map rtoks fr);
  pa_where : opt_rel (Exo en) wh (option_map toks wh);
  pa_group : opt_rel (groupby_ex en) gb (option_map (groupby_fmap toks) gb);
  pa_having : opt_rel (Exo en) hv (option_map toks hv);
  pa_windows : Forall2 (named_window_ex en) ws (map (fun nw => (fst nw, window_fmap toks (snd nw))) ws);
  pa_names : distinct_names (map fst ws) = true }.
Lemma select_parts en select from_ wh gb having distinct windows qa :
  let e := NSelect select from_ wh gb having distinct windows qa in
  good_here en [] e = true -> (forall x, In x (kids e) -> good en [] x) ->
  (forall x, In x (kids e) -> Rb en [] x) -> Parts en select from_ wh gb having windows.
Proof.
  intros e H G IH.
  assert (X : forall x, In x (kids e) -> is_expr x = true -> Exo en x (toks x)).
  { intros x Hx Ex. exists (cat x). pose proof (rb_expr _ _ _ (IH x Hx) Ex) as E.
    rewrite (unvar_same en [] x (G x Hx)) in E; auto. }
  assert (M : made e).
  { unfold good_here in H. apply andb_true_iff in H as [H _]. unfold made.
    destruct (check e); [eauto|discriminate]. }
  unfold good_here in H. apply andb_true_iff in H as [_ H]. subst e. cbn [kids] in *.
  rewrite !andb_true_iff in H. destruct H as [[[[[[[[_ H1] H2] H3] H4] H5] H6] H7] H8].
  destruct (select_groupby _ _ _ _ _ _ _ _ M) as [Mg Ms].
  constructor; auto.
  - rewrite forallb_forall in H1. apply same_map. intros x Hx.
    apply (rb_item en [] x (IH x ltac:(rewrite !in_app_iff; auto))); auto.
  - apply same_opt. intros a Ha. exists (rcat a).
    apply (rb_rel en [] a (IH a ltac:(rewrite !in_app_iff; auto))).
    destruct from_; [|contradiction]. now destruct Ha as [<-|[]].
  - apply same_opt. intros a Ha. apply X; [rewrite !in_app_iff; auto|].
    destruct wh; [|contradiction]. now destruct Ha as [<-|[]].
  - apply same_opt. intros g Hg. destruct gb as [g'|]; [|contradiction]. destruct Hg as [<-|[]].
    cbn [opt_ok] in Mg. apply (groupby_ex_map en g' tt); [|exact H4|exact Mg].
    intros x Hx. apply X. rewrite !in_app_iff. auto.
  - apply same_opt. intros a Ha. apply X; [rewrite !in_app_iff; auto 6|].
    destruct having; [|contradiction]. now destruct Ha as [<-|[]].
  - apply same_map. intros [n w] Hw. rewrite forallb_forall in H6. specialize (H6 _ Hw). cbn [fst snd] in H6 |- *.
    apply andb_true_iff in H6 as [Hp Hg]. unfold window_good in Hg. rewrite andb_true_iff, forallb_forall in Hg.
    destruct Hg as [Hg1 Hg2]. split; [reflexivity|]. split; [exact Hp|]. cbn [snd].
    apply same_window; [|exact Hg1]. intros a Ha. apply X; [|now apply Hg2].
    rewrite !in_app_iff. do 5 right. left. apply in_concat. exists (window_kids w).
    split; [|exact Ha]. apply in_map_iff. exists (n, w). auto.
Qed.
(** A query is a core with attributes. *)
Lemma main_core en e :
  good_here en [] e = true -> (forall x, In x (kids e) -> good en [] x) ->
  (forall x, In x (kids e) -> Rb en [] x) -> is_q e = true ->
  exists core tc qa, e = with_q qa core
    /\ toks e = with_toks toks qa ++ tc ++ constraint_toks toks qa
    /\ Core en core tc /\ bare core /\ qattrs_good qa = true
    /\ (forall x, In x (q_with qa ++ map o_value (q_orderby qa)) -> In x (kids e)).
Proof.
  intros H G IH Hq. pose proof H as H0.
  assert (X : forall x, In x (kids e) -> is_expr x = true -> Exo en x (toks x)).
  { intros x Hx Ex. exists (cat x). pose proof (rb_expr _ _ _ (IH x Hx) Ex) as E.
    rewrite (unvar_same en [] x (G x Hx)) in E; auto. }
  assert (M : made e).
  { unfold good_here in H. apply andb_true_iff in H as [H _]. unfold made.
    destruct (check e); [eauto|discriminate]. }
  unfold good_here in H. apply andb_true_iff in H as [_ H].
  destruct e; try discriminate Hq; cbn [kids] in *.
  - rewrite !andb_true_iff in H. destruct H as [[[[[[[[_ H1] H2] H3] H4] H5] H6] H7] H8].
    destruct (select_groupby _ _ _ _ _ _ _ _ M) as [Mg Ms].
    exists (NSelect select from_ wh gb having distinct windows no_qattrs). eexists. exists qa.
    split; [reflexivity|]. split; [apply select_core_toks|]. split; [|split; [|split]].
    + pose proof (select_parts en _ _ _ _ _ _ _ _ H0 G IH) as [P1 P2 P3 P4 P5 P6 P7 P8].
      apply Core_select; auto. now apply select_made in M.
    + reflexivity.
    + assumption.
    + intros x Hx. rewrite !in_app_iff. do 6 right. destruct qa. exact Hx.
  - rewrite !andb_true_iff in H. destruct H as [[_ H1] H2].
    destruct e as [| | | | | | | | | | | | | | | | | | | | | | | | | | | | |n sc ca| | | | |]; try discriminate H1.
    exists (NTableQuery (NTable n sc ca) no_qattrs), (Tokens.K "TABLE" :: chain_toks [ca; sc; Some n]), qa.
    pose proof (G _ (or_introl eq_refl)) as Gt. inversion Gt as [vs' e' Ht _ V E']; subst.
    unfold good_here in Ht. rewrite !andb_true_iff in Ht. destruct Ht as [Hc [[_ Hs] Hi]].
    split; [reflexivity|]. split; [reflexivity|]. split; [|split; [|split]].
    + apply Core_table; [|destruct ca, sc; try discriminate; congruence|exact Hi].
      unfold made. destruct (check (NTable n sc ca)); [eauto|discriminate].
    + reflexivity.
    + assumption.
    + intros x Hx. right. destruct qa. exact Hx.
  - rewrite !andb_true_iff in H. destruct H as [[[_ H1] H2] H3].
    exists (NValues exprs no_qattrs), (Tokens.K "VALUES" :: commas (map toks exprs)), qa.
    split; [reflexivity|]. split; [reflexivity|]. split; [|split; [|split]].
    + apply Core_values.
      * rewrite forallb_forall in H2. apply same_map. intros x Hx. apply X; [|now apply H2].
        rewrite in_app_iff. auto.
      * destruct exprs; [discriminate H1|discriminate].
      * now apply values_made in M.
    + reflexivity.
    + assumption.
    + intros x Hx. rewrite in_app_iff. right. destruct qa. exact Hx.
Qed.
Lemma main_q en e :
  good_here en [] e = true -> (forall x, In x (kids e) -> good en [] x) ->
  (forall x, In x (kids e) -> Rb en [] x) -> is_q e = true -> Rq en e (toks e).
Proof.
  intros H G IH Hq. destruct (main_core en e H G IH Hq) as (core & tc & qa & E & T & C & B & Q & I).
  rewrite T, E. apply query_whole; auto.
  - intros x Hx Nx. apply (rb_named en [] x); [|exact Nx]. apply IH, I, in_app_iff. now left.
  - intros x Hx Ex. assert (Kx : In x (kids e)) by (apply I, in_app_iff; now right).
    exists (cat x). pose proof (rb_expr _ _ _ (IH x Kx) Ex) as R.
    rewrite (unvar_same en [] x (G x Kx)) in R; auto.
Qed.

(** * Relations *)
Lemma rtoks_rel r : is_query r = false -> rtoks r = toks r.
Proof. intro H. unfold rtoks, rel_toks. now rewrite H. Qed.

Lemma main_rel en e :
  good_here en [] e = true -> (forall x, In x (kids e) -> good en [] x) ->
  (forall x, In x (kids e) -> Rb en [] x) -> is_rel e = true -> Rl en (rcat e) e (rtoks e).
Proof.
  intros H G IH Hr.
  destruct (is_q e) eqn:Hq.
  { pose proof (main_q en e H G IH Hq) as R. rewrite rtoks_q by exact Hq.
    assert (rcat e = 3) as -> by (destruct e; try discriminate Hq; reflexivity).
    apply Rl_query; [exact R|]. intros ->. discriminate Hq. }
  assert (X : forall x, In x (kids e) -> is_expr x = true -> Exo en x (toks x)).
  { intros x Hx Ex. exists (cat x). pose proof (rb_expr _ _ _ (IH x Hx) Ex) as E.
    rewrite (unvar_same en [] x (G x Hx)) in E; auto. }
  assert (M : made e).
  { unfold good_here in H. apply andb_true_iff in H as [H _]. unfold made.
    destruct (check e); [eauto|discriminate]. }
  unfold good_here in H. apply andb_true_iff in H as [_ H].
  unfold is_rel in Hr. rewrite Hq in Hr. cbn [orb] in Hr.
  destruct e; try discriminate Hr; cbn [kids] in *; rewrite rtoks_rel by reflexivity; cbn [rcat].
  - (* table *) rewrite !andb_true_iff in H. destruct H as [[_ H1] H2].
    apply Rl_table; [exact M | destruct catalog, schema; try discriminate; congruence | exact H2].
  - (* alias *) rewrite !andb_true_iff in H. destruct H as [[[[_ H1] H2] H3] H4].
    apply Nat.eqb_eq in H2. pose proof (rb_rel _ _ _ (IH e (or_introl eq_refl)) H1) as R. rewrite H2 in R.
    change (toks (NAliasedRel e alias cols))
      with (rtoks e ++ qid alias ::
            match cols with [] => [] | _ => paren (commas (map (fun c => [word_token c]) cols)) end).
    assert ((match cols with [] => [] | _ => paren (commas (map (fun c => [word_token c]) cols)) end)
            = columns_text cols) as ->.
    { unfold columns_text. rewrite words_plain by exact H4. reflexivity. }
    now apply Rl_aliased.
  - (* join *) rewrite !andb_true_iff in H. destruct H as [[[_ H1] H2] H3].
    pose proof (rb_rel _ _ _ (IH e1 (or_introl eq_refl)) H1) as R1.
    pose proof (rb_rel _ _ _ (IH e2 (or_intror (or_introl eq_refl))) H2) as R2.
    destruct crit as [x|].
    + rewrite !andb_true_iff in H3. destruct H3 as [[J N] C]. apply negb_true_iff in J, N. subst natural.
      assert (Jt : jt <> JCross) by (intros ->; discriminate J).
      pose (y := match x with JUsing l => JUsing l | JOn a => JOn (toks a) end : jcrit (list token)).
      assert (Cr : crit_rel en x y).
      { destruct x as [l|a]; cbn in *.
        - apply andb_true_iff in C as [C1 C2]. repeat split; auto. destruct l; [discriminate C1|discriminate].
        - apply X; auto. }
      pose proof (Rl_join_on en _ _ _ _ _ _ jt x y R1 R2 Jt Cr M) as R.
      destruct x; exact R.
    + apply andb_true_iff in H3 as [J L]. apply Nat.leb_le in L.
      assert (Jt : (jt = JCross /\ natural = false) \/ (jt <> JCross /\ natural = true)).
      { destruct jt, natural; try discriminate J; auto; right; split; auto; discriminate. }
      pose proof (Rl_join_plain en _ _ _ _ _ _ jt natural R1 R2 L Jt M) as R.
      rewrite <- (app_nil_r (rtoks e2)) in R. exact R.
  - (* unnest *) rewrite !andb_true_iff in H. destruct H as [[[_ H1] H2] H3]. apply negb_true_iff in H3. subst ordinality.
    rewrite forallb_forall in H2.
    apply Rl_unnest; [|destruct arrays; [discriminate H1|discriminate]|exact M].
    apply same_map. intros x Hx. apply X; auto.
  - (* lateral *) apply andb_true_iff in H as [_ H].
    exact (Rl_lateral en e _ (rb_q _ _ _ (IH e (or_introl eq_refl)) H) M).
  - (* sample *) rewrite !andb_true_iff in H. destruct H as [[[_ H1] H2] H3].
    pose proof (rb_rel _ _ _ (IH e1 (or_introl eq_refl)) H1) as R.
    pose proof (X e2 (or_intror (or_introl eq_refl)) H2) as P.
    change (toks (NSample e1 st e2))
      with (rel_toks true e1 (toks e1) ++ Tokens.K "TABLESAMPLE" :: Tokens.K (sample_text st) :: paren (toks e2)).
    assert (R' : exists c, 2 <= c /\ Rl en c e1 (rel_toks true e1 (toks e1))).
    { apply orb_true_iff in H3 as [H3|H3].
      - apply Nat.leb_le in H3. exists (rcat e1). split; [exact H3|].
        assert (rel_toks true e1 (toks e1) = rtoks e1) as ->; [|exact R].
        unfold rtoks, rel_toks. destruct e1; try reflexivity. cbn in H3. lia.
      - apply andb_true_iff in H3 as [J Np]. exists 3. split; [lia|].
        unfold rel_toks. rewrite J. cbn [andb]. rewrite orb_true_r.
        rewrite rtoks_rel in R by (destruct e1; try discriminate J; reflexivity).
        eapply Rl_paren; eauto. }
    destruct R' as (c & Hc & R'). now apply Rl_sample with c.
Qed.

(** * All objects *)
Lemma main_item en e :
  good_here en [] e = true -> (forall x, In x (kids e) -> good en [] x) ->
  (forall x, In x (kids e) -> Rb en [] x) ->
  is_expr e = false -> is_item e = true -> Si en e (toks e).
Proof.
  intros H G IH Ee Hi.
  assert (M : made e).
  { unfold good_here in H. apply andb_true_iff in H as [H _]. unfold made.
    destruct (check e); [eauto|discriminate]. }
  unfold good_here in H. apply andb_true_iff in H as [_ H].
  destruct e; try discriminate Hi; try discriminate Ee.
  - cbn [nonempty negb andb] in H. apply andb_true_iff in H as [H1 H2].
    apply (Si_aliased en e (toks e)); auto.
    exists (cat e). pose proof (rb_expr _ _ _ (IH e (or_introl eq_refl)) H1) as E.
    rewrite (unvar_same en [] e (G e (or_introl eq_refl))) in E; auto.
  - apply andb_true_iff in H as [Ht H]. apply dtype_eqb_eq in Ht. subst t.
    destruct table as [|s|]; [apply Si_star| |discriminate].
    unfold plain in H.
    assert (P : plain s = true) by exact H.
    assert (toks (NStar (TRStr s) unknown) = [word_token s; TSym "."; TSym "*"]) as ->.
    { destruct s; [discriminate H|reflexivity]. }
    rewrite plain_token by exact P. apply Si_table_star.
Qed.

Theorem main en vs e : good en vs e -> Rb en vs e.
Proof.
  induction 1 as [vs e H G IH].
  assert (KE : kid_ex en e) by (intros x Hx Ex; now apply (rb_expr en (scope vs e) x (IH x Hx))).
  assert (KQ : forall x, In x (kids e) -> is_q x = true -> Rq en x (toks x))
    by (intros x Hx Ex; now apply (rb_q en (scope vs e) x (IH x Hx))).
  assert (KN : forall x, In x (kids e) -> negatable x = true -> eq_ne x = false ->
                 Ex en 4 (NUn UNot (unvar [] x)) (toks_n true x))
    by (intros x Hx N E; now apply (rb_not en (scope vs e) x (IH x Hx))).
  assert (TY : is_expr e = true -> typed (unvar [] e))
    by (intro He; apply (unvar_typed en vs); [now constructor | exact He]).
  assert (EX : is_expr e = true -> Ex en (cat e) (unvar [] e) (toks e))
    by (intro He; apply (main_expr en vs); auto).
  assert (V0 : is_rel e = true -> vs = []).
  { intro Hr. unfold good_here in H. apply andb_true_iff in H as [_ H].
    destruct vs; [reflexivity|]. destruct e; try discriminate Hr; cbn [nonempty negb andb] in H; discriminate H. }
  assert (SC : is_expr e = false -> scope vs e = vs) by (destruct e; auto; discriminate).
  assert (RQ : is_q e = true -> is_rel e = true) by (unfold is_rel; now intros ->).
  assert (NE : is_rel e = true -> is_expr e = false) by (destruct e; auto; discriminate).
  constructor.
  - exact EX.
  - intros N E. assert (He : is_expr e = true) by (destruct e; try discriminate N; reflexivity).
    exact (main_pred en vs e true H KE KQ (TY He) N E).
  - intros -> Hi. destruct (is_expr e) eqn:Ee.
    + apply Si_expr. exists (cat e). specialize (EX eq_refl).
      rewrite (unvar_same en [] e) in EX; auto. now constructor.
    + rewrite (SC eq_refl) in *. now apply main_item.
  - intro Hq. pose proof (RQ Hq) as Hr. pose proof (V0 Hr). subst vs. rewrite (SC (NE Hr)) in *.
    now apply main_q.
  - intro Hr. pose proof (V0 Hr). subst vs. rewrite (SC (NE Hr)) in *. now apply main_rel.
  - intro Hn. destruct e; try discriminate Hn. destruct cols; [|discriminate Hn]. cbn [named_good] in Hn.
    exists e, alias. split; [reflexivity|].
    unfold good_here in H. rewrite !andb_true_iff in H. destruct H as [Hc [[[[_ _] _] Ha] _]].
    split; [exact Ha|]. split; [apply KQ; [now left | exact Hn]|].
    unfold made. destruct (check (NAliasedRel e alias [])); [eauto|discriminate].
Qed.

(** A query without attributes, before anything that may follow it. *)
Lemma core_of en q : good en [] q -> is_q q = true -> bare q -> Core en q (toks q).
Proof.
  intros G Hq B. inversion G as [vs e H L V E]; subst vs e.
  assert (S : scope [] q = []) by (destruct q; try discriminate Hq; reflexivity). rewrite S in L.
  destruct (main_core en q H L) as (core & tc & qa & E1 & T & C & Bc & _); auto.
  { intros x Hx. apply main, L, Hx. }
  assert (qa = no_qattrs /\ core = q) as [-> ->].
  { destruct core; try contradiction; cbn [bare] in Bc; subst qa0; unfold with_q in E1; cbn [set_q] in E1; subst q;
      cbn [bare] in B; subst qa; auto. }
  rewrite T. cbn [with_toks q_with no_qattrs constraint_toks q_orderby q_offset q_limit]. 
  change (Core en q (tc ++ [])). now rewrite app_nil_r.
Qed.

(** * Whole texts *)
Lemma lev_nil : lev [] = 0.
Proof. reflexivity. Qed.
Lemma expression_tokens en e : good en [] e -> is_expr e = true -> expression_of_tokens en (toks e) = Ok e.
Proof.
  intros G He. pose proof (rb_expr _ _ _ (main _ _ _ G) He) as E.
  rewrite (unvar_same en [] e G) in E by auto.
  unfold expression_of_tokens.
  pose proof (ex_rd en _ _ _ (parse_fuel (toks e)) E) as R.
  assert (L : 8 * length (toks e) + 4 <= parse_fuel (toks e)) by (unfold parse_fuel; lia).
  specialize (R L []). rewrite app_nil_r in R. rewrite R by reflexivity. reflexivity.
Qed.
Lemma query_tokens en q rest :
  good en [] q -> is_q q = true -> qend rest = true ->
  query_of_tokens en (toks q ++ rest) = Ok q.
Proof.
  intros G Hq Hr. pose proof (rb_q _ _ _ (main _ _ _ G) Hq) as R.
  unfold query_of_tokens. rewrite (rq_read _ _ _ R); [reflexivity| |exact Hr].
  unfold parse_fuel. rewrite app_length. lia.
Qed.
