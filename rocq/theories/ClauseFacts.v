(** Small queries built around one clause are in the fragment of Good.v when the
    parts of the clause are. *)
From Coq Require Import String Ascii List ZArith NArith Bool Arith Lia.
From Verif Require Import PyStr StrFacts Printer Types TypeFacts Conversions Inference Lexer LexFacts TypeParser Functions Ast Sql
  Tokens SqlReads Parser ParseParts ParseExpr ParseRel ParseQuery Good Unvar ParseMain ParseWhole GoodFacts TextFacts SmallTrees.
Import ListNotations.
Open Scope nat_scope.
Open Scope string_scope.
Open Scope list_scope.

(** Printable and in the fragment. *)
Definition fine (en : env) (e : node) : Prop := lexable e /\ good en [] e.
Definition fine_expr (en : env) (e : node) : Prop := fine en e /\ is_expr e = true.

Lemma good_check en vs e : good en vs e -> exists t, check e = Ok t.
Proof.
  intro G. inversion G as [? ? H _]; subst. unfold good_here in H. apply andb_true_iff in H as [H _].
  destruct (check e); [eauto|discriminate].
Qed.
Lemma fine_sub en e : fine en e -> (let* _ := check e in Ok tt) = Ok tt.
Proof. intros [_ G]. destruct (good_check _ _ _ G) as [t ->]. reflexivity. Qed.
Lemma fine_typed en e : fine_expr en e -> exists t, wrapped e (check e) = Ok t.
Proof.
  intros [[_ G] E]. pose proof (rb_expr _ _ _ (main _ _ _ G) E) as X.
  rewrite (unvar_same en [] e G) in X by auto. exact (ex_typed _ _ _ _ X).
Qed.
Lemma fine_wsub en e : fine_expr en e -> (let* _ := wrapped e (check e) in Ok tt) = Ok tt.
Proof. intro F. destruct (fine_typed en e F) as [t ->]. reflexivity. Qed.

(** * The query around a clause *)
Definition star : node := NStar TRNone unknown.
(** SELECT * FROM fr GROUP BY gb WINDOW ws and what [qa] adds. *)
Definition star_query (fr : option node) (gb : option (groupby node)) (ws : list (string * window node))
  (qa : qattrs node) : node :=
  NSelect [star] fr None gb None false ws qa.

(** CUBE, ROLLUP and GROUPING SETS need an element (groupby.py 62-67, 85-90, 107-112). *)
Definition group_built (g : group node) : bool :=
  match g with GSet _ => true | GSets ll => nonempty ll | GCube l | GRollup l => nonempty l end.
Record groupby_fine (en : env) (g : groupby node) : Prop := {
  gf_some : g_groups g <> [];
  gf_built : forallb group_built (g_groups g) = true;
  gf_shape : forallb group_good (g_groups g) = true;
  gf_fine : forall x, In x (groupby_kids g) -> fine en x }.
Record window_fine (en : env) (w : window node) : Prop := {
  wf_parent : opt_all plain (w_parent w) = true;
  wf_fine : forall x, In x (window_kids w) -> fine_expr en x }.
Record windows_fine (en : env) (ws : list (string * window node)) : Prop := {
  wsf_names : forallb plain (map fst ws) = true;
  wsf_distinct : distinct_names (map fst ws) = true;
  wsf_each : forall nw, In nw ws -> window_fine en (snd nw) }.
Definition orders_fine (en : env) (l : list (order node)) : Prop :=
  forall x, In x l -> fine_expr en (o_value x).

Lemma group_good_expr g : group_good g = true -> forall x, In x (group_kids g) -> is_expr x = true.
Proof.
  destruct g as [l|ll|l|l]; cbn [group_good group_kids].
  - unfold set_good. intros [H _]%andb_true_iff x Hx. rewrite forallb_forall in H. auto.
  - intros H x (l & Hl & Hx)%in_concat. rewrite forallb_forall in H. specialize (H l Hl). unfold set_good in H.
    apply andb_true_iff in H as [H _]. rewrite forallb_forall in H. auto.
  - intros H x Hx. rewrite forallb_forall in H. auto.
  - intros H x Hx. rewrite forallb_forall in H. auto.
Qed.
Lemma group_ok_fine {A} (f : A -> result unit) (b : group A -> bool) g :
  b = (fun g => match g with GSet _ => true | GSets ll => nonempty ll | GCube l | GRollup l => nonempty l end) ->
  b g = true -> (forall x, In x (group_kids g) -> f x = Ok tt) -> group_ok f g = Ok tt.
Proof.
  intros -> B H. destruct g as [l|ll|l|l]; cbn [group_ok group_kids] in *.
  - now apply all_ok_ok.
  - rewrite all_ok_ok; [|intros l Hl; apply all_ok_ok; intros x Hx; apply H, in_concat; eauto].
    cbn [bind]. now rewrite B.
  - rewrite all_ok_ok by exact H. cbn [bind]. now rewrite B.
  - rewrite all_ok_ok by exact H. cbn [bind]. now rewrite B.
Qed.
Lemma groupby_check en g : groupby_fine en g -> groupby_ok (fun x => let* _ := check x in Ok tt) g = Ok tt.
Proof.
  intros [_ B _ F]. destruct g as [gs d]. cbn [groupby_ok g_groups groupby_kids] in *. apply all_ok_ok.
  intros g Hg. apply (group_ok_fine _ group_built); [reflexivity| |].
  - rewrite forallb_forall in B. auto.
  - intros x Hx. apply (fine_sub en), F, in_concat. exists (group_kids g). split; [now apply in_map | exact Hx].
Qed.
Lemma window_check en w : window_fine en w ->
  window_ok (fun x => let* _ := check x in Ok tt) (fun x => let* _ := wrapped x (check x) in Ok tt) w = Ok tt.
Proof.
  intros [_ F]. destruct w as [p ob ps ft st en']. cbn [window_kids window_ok] in *.
  rewrite all_ok_ok.
  2:{ intros [v d n] Hx. cbn [order_ok]. apply (fine_sub en). apply F. rewrite in_app_iff. left.
      now apply (in_map o_value) in Hx. }
  cbn [bind]. rewrite all_ok_ok by (intros x Hx; apply (fine_sub en), F; rewrite !in_app_iff; auto). cbn [bind].
  assert (B : forall b : bound node, (forall x, In x (bound_kids b) -> fine_expr en x) ->
     bound_ok (fun x => let* _ := wrapped x (check x) in Ok tt) b = Ok tt).
  { intros [dir v| |] H; try reflexivity. cbn [bound_ok]. apply (fine_wsub en), H. now left. }
  rewrite B by (intros; apply F; rewrite !in_app_iff; auto). cbn [bind].
  apply B. intros; apply F; rewrite !in_app_iff; auto.
Qed.
Lemma orders_check en l : orders_fine en l -> all_ok (order_ok (fun x => let* _ := check x in Ok tt)) l = Ok tt.
Proof. intro F. apply all_ok_ok. intros [v d n] Hx. cbn [order_ok]. exact (fine_sub en v (proj1 (F _ Hx))). Qed.

Lemma star_fine en : fine en star.
Proof.
  split.
  - apply (lexable_dec 1). reflexivity.
  - apply (good_dec en 1). destruct en. reflexivity.
Qed.
Lemma plain_wordy n : plain n = true -> wordy n = true.
Proof. unfold plain. now intros [H _]%andb_true_iff. Qed.
Lemma window_lex_fine en w : window_fine en w -> window_lex w = true.
Proof.
  intros [P _]. unfold window_lex. destruct (w_parent w) as [n|]; [|reflexivity].
  cbn [opt_all] in P. rewrite (plain_wordy n P). apply orb_true_r.
Qed.

Definition opt_prop {A} (P : A -> Prop) (x : option A) : Prop := match x with None => True | Some a => P a end.
Lemma star_query_fine en fr gb ws ob :
  opt_prop (fun r => fine en r /\ is_rel r = true) fr -> opt_prop (groupby_fine en) gb ->
  windows_fine en ws -> orders_fine en ob ->
  fine en (star_query fr gb ws (mkQ [] ob None None)).
Proof.
  intros Hf Hg Hw Ho.
  assert (KF : forall x, In x (kids (star_query fr gb ws (mkQ [] ob None None))) -> fine en x).
  { cbn [star_query kids opt_kids qattrs_kids]. intros x Hx. rewrite !in_app_iff in Hx.
    destruct Hx as [[<-|[]]|[Hx|[[]|[Hx|[[]|[Hx|[[]|Hx]]]]]]].
    - apply star_fine.
    - destruct fr as [r|]; [|destruct Hx]. destruct Hx as [<-|[]]. apply Hf.
    - destruct gb as [g|]; [|destruct Hx]. now apply (gf_fine en g Hg).
    - apply in_concat in Hx as (l & Hl & Hx). apply in_map_iff in Hl as (nw & <- & Hn).
      apply (wf_fine en _ (wsf_each en ws Hw nw Hn)). exact Hx.
    - apply in_map_iff in Hx as (y & <- & Hy). apply (Ho y Hy). }
  assert (C : exists t, check (star_query fr gb ws (mkQ [] ob None None)) = Ok (Some t)).
  { assert (C : check (star_query fr gb ws (mkQ [] ob None None)) =
      let sub := fun x => let* _ := check x in Ok tt in
      let* _ := opt_ok sub fr in
      let* _ := opt_ok (groupby_ok sub) gb in
      let* _ := all_ok (fun nw : string * window node => let '(_, w) := nw in
                  window_ok sub (fun x => let* _ := wrapped x (check x) in Ok tt) w) ws in
      let* _ := all_ok (order_ok sub) ob in
      Ok (Some unknown)).
    { unfold star_query. cbn [check each star tref_ok bind py_assert tyof opt_ok qattrs_ok all_ok].
      destruct (opt_ok _ fr); [|reflexivity]. cbn [bind]. destruct (opt_ok _ gb); [|reflexivity]. cbn [bind].
      destruct (all_ok _ ws); [|reflexivity]. cbn [bind]. destruct (all_ok _ ob); reflexivity. }
    rewrite C. cbv zeta. clear C.
    assert (opt_ok (fun x => let* _ := check x in Ok tt) fr = Ok tt) as ->.
    { destruct fr as [r|]; [|reflexivity]. apply (fine_sub en), Hf. }
    cbn [bind].
    assert (opt_ok (groupby_ok (fun x => let* _ := check x in Ok tt)) gb = Ok tt) as ->.
    { destruct gb as [g|]; [|reflexivity]. exact (groupby_check en g Hg). }
    cbn [bind]. rewrite all_ok_ok; [|intros [n w] Hn; exact (window_check en w (wsf_each en ws Hw _ Hn))].
    cbn [bind]. rewrite (orders_check en) by exact Ho. cbn [bind]. eauto. }
  split.
  - constructor; [|intros x Hx; apply KF, Hx].
    cbn [star_query lex_here with_lex q_with forallb]. rewrite andb_true_r. apply forallb_forall.
    intros nw Hn. rewrite (window_lex_fine en _ (wsf_each en ws Hw _ Hn)), andb_true_r.
    apply plain_wordy. pose proof (wsf_names en ws Hw) as N. rewrite forallb_forall in N. apply N. now apply in_map.
  - constructor; [|intros x Hx; apply KF, Hx].
    unfold good_here. destruct C as [t ->]. cbn [star_query nonempty negb forallb star is_item is_expr orb andb opt_all].
    repeat (apply andb_true_iff; split).
    + destruct fr as [r|]; [apply Hf | reflexivity].
    + reflexivity.
    + destruct gb as [g|]; [|reflexivity]. destruct Hg as [S _ G _]. cbn [opt_all]. unfold groupby_good.
      rewrite G. destruct (g_groups g); [congruence | reflexivity].
    + reflexivity.
    + apply forallb_forall. intros nw Hn. apply andb_true_iff. split.
      * pose proof (wsf_names en ws Hw) as N. rewrite forallb_forall in N. apply N. now apply in_map.
      * pose proof (wsf_each en ws Hw _ Hn) as [P F]. unfold window_good. rewrite P. apply forallb_forall.
        intros x Hx. apply (F x Hx).
    + apply (wsf_distinct en ws Hw).
    + reflexivity.
    + cbn [q_orderby]. apply forallb_forall. intros x Hx. apply (Ho x Hx).
    + reflexivity.
    + reflexivity.
Qed.

(** * Tables *)
Definition opt_name (x : option string) : Prop := opt_prop name_ok x.
Lemma name_text n : name_ok n -> text_ok dquote n = true /\ inner dquote n = true.
Proof.
  intros (D & E & B). unfold text_ok. rewrite B. split.
  - rewrite andb_true_r. now apply paired_doubled.
  - now apply inner_iff.
Qed.
Definition qualified (sc ca : option string) : Prop := ca <> None -> exists s, sc = Some s /\ s <> "".
Lemma table_fine en n sc ca : name_ok n -> opt_name sc -> opt_name ca -> qualified sc ca -> fine en (NTable n sc ca).
Proof.
  intros Hn Hs Hc Q. destruct (name_text n Hn) as [N1 N2].
  assert (S : opt_lex (text_ok dquote) sc = true /\ forallb (inner dquote) (drop_none [sc]) = true).
  { destruct sc as [s|]; [|auto]. destruct (name_text s Hs) as [A B]. cbn [opt_lex drop_none forallb]. now rewrite A, B. }
  assert (C : opt_lex (text_ok dquote) ca = true /\ forallb (inner dquote) (drop_none [ca]) = true).
  { destruct ca as [s|]; [|auto]. destruct (name_text s Hc) as [A B]. cbn [opt_lex drop_none forallb]. now rewrite A, B. }
  split.
  - constructor; [|intros ? []]. cbn [lex_here]. now rewrite N1, (proj1 S), (proj1 C).
  - constructor; [|intros ? []]. unfold good_here. cbn [check].
    assert ((negb (truthy ca) || truthy sc)%bool = true) as ->.
    { destruct ca as [c|]; [|reflexivity]. destruct (Q ltac:(discriminate)) as (s & -> & Hs').
      destruct s; [congruence | apply orb_true_r]. }
    cbn [py_assert bind nonempty negb andb].
    assert (match ca with Some _ => match sc with Some _ => true | None => false end | None => true end = true) as ->.
    { destruct ca as [c|]; [|reflexivity]. now destruct (Q ltac:(discriminate)) as (s & -> & _). }
    cbn [andb]. destruct S as [_ S], C as [_ C].
    destruct ca, sc; cbn [drop_none forallb] in *; rewrite ?N2, ?andb_true_r in *; rewrite ?S, ?C; reflexivity.
Qed.
Lemma table_query_fine en t ob :
  fine en t -> (match t with NTable _ _ _ => True | _ => False end) -> orders_fine en ob ->
  fine en (NTableQuery t (mkQ [] ob None None)).
Proof.
  intros Ft T Ho. destruct t; try contradiction.
  assert (KF : forall x, In x (kids (NTableQuery (NTable name schema catalog) (mkQ [] ob None None))) -> fine en x).
  { cbn [kids qattrs_kids app]. intros x [<-|Hx]; [exact Ft|].
    apply in_map_iff in Hx as (y & <- & Hy). apply (Ho y Hy). }
  split.
  - constructor; [reflexivity|]. intros x Hx. apply KF, Hx.
  - constructor; [|intros x Hx; apply KF, Hx].
    unfold good_here.
    assert (check (NTableQuery (NTable name schema catalog) (mkQ [] ob None None)) = Ok (Some unknown)) as ->.
    { pose proof (fine_sub _ _ Ft) as C. pose proof (orders_check en ob Ho) as O.
      change (check (NTableQuery (NTable name schema catalog) (mkQ [] ob None None)))
        with (let* _ := (let* _ := check (NTable name schema catalog) in Ok tt) in
              let* _ := (let* _ := all_ok (fun x => let* _ := check x in Ok tt) [] in
                         all_ok (order_ok (fun x => let* _ := check x in Ok tt)) ob) in
              Ok (Some unknown)).
      rewrite C. cbn [bind]. change (all_ok (fun x => let* _ := check x in Ok tt) []) with (@Ok unit tt).
      cbn [bind]. rewrite O. reflexivity. }
    cbn [nonempty negb andb]. unfold qattrs_good. cbn [q_with q_orderby q_offset q_limit forallb opt_all andb].
    rewrite !andb_true_r. apply forallb_forall. intros x Hx. apply (Ho x Hx).
Qed.
