(** Property theorems C62: which objects can be built, and their types. *)
From Coq Require Import String List Bool ZArith Arith Lia.
From Verif Require Import PyStr Types TypeParser Inference Conversions Functions Ast Tokens TypeFacts NodeFacts Typing Parser.
From Verif Require PropertiesReader Functions.
Import ListNotations.
Open Scope nat_scope.
Open Scope string_scope.
Open Scope list_scope.

(** * The checks of [check], as propositions *)
Definition built (x : node) : Prop := exists u, has x u.
Definition valued (x : node) : Prop := exists u, has x (Some u).
Definition sub (x : node) : result unit := let* _ := check x in Ok tt.
Definition wsub (x : node) : result unit := let* _ := wrapped x (check x) in Ok tt.
(** [f] succeeds exactly when [P]. *)
Definition dec (f : node -> result unit) (P : node -> Prop) (l : list node) : Prop :=
  forall x, In x l -> (f x = Ok tt <-> P x).

Lemma unit_ok (r : result unit) u : r = Ok u <-> r = Ok tt.
Proof. destruct u. tauto. Qed.
Lemma bind_ok {A B} (m : result A) (k : A -> result B) y :
  (let* a := m in k a) = Ok y <-> exists a, m = Ok a /\ k a = Ok y.
Proof. split; [apply bind_inv | intros (a & -> & H); exact H]. Qed.
Lemma then_ok {B} (m : result unit) (k : result B) y : (let* _ := m in k) = Ok y <-> m = Ok tt /\ k = Ok y.
Proof. rewrite bind_ok. split; [intros ([] & H); exact H | intro H; exists tt; exact H]. Qed.
Lemma assert_ok b u : py_assert b = Ok u <-> b = true.
Proof. destruct u, b; cbn; split; congruence. Qed.
Lemma some_ok {A} (r : result A) x : some r = Ok x <-> exists a, x = Some a /\ r = Ok a.
Proof.
  unfold some. rewrite bind_ok. split.
  - intros (a & H & E). injection E as <-. eauto.
  - intros (a & -> & H). eauto.
Qed.
Lemma ok_ok {A} (x y : A) : Ok x = Ok y <-> y = x.
Proof. split; [now intros [= ->] | now intros ->]. Qed.
Lemma each_iff {A B} (f : A -> result B) l ts : each f l = Ok ts <-> Forall2 (fun x t => f x = Ok t) l ts.
Proof.
  revert ts. induction l as [|x l IH]; intro ts; cbn [each].
  - split; [intros [= <-]; constructor | inversion 1; reflexivity].
  - rewrite bind_ok. split.
    + intros (b & E & H). apply bind_inv in H as (bs & E2 & H). injection H as <-. constructor; [exact E | now apply IH].
    + inversion 1 as [|? b ? bs E H']; subst. exists b. split; [exact E|]. apply IH in H'. rewrite H'. reflexivity.
Qed.
Lemma all_iff {A} (f : A -> result unit) l u : all_ok f l = Ok u <-> Forall (fun x => f x = Ok tt) l.
Proof.
  destruct u. unfold all_ok. rewrite bind_ok. split.
  - intros (ts & E & _). apply each_iff in E. induction E as [|x [] l ts H _ IH]; constructor; auto.
  - intro H. exists (map (fun _ => tt) l). split; [|reflexivity]. apply each_iff. induction H; constructor; auto.
Qed.
Lemma opt_iff {A} (f : A -> result unit) x u : opt_ok f x = Ok u <-> Forall (fun x => f x = Ok tt) (opt_kids x).
Proof.
  destruct u, x as [a|]; cbn [opt_ok opt_kids].
  - split; [intro H; now repeat constructor | now inversion 1].
  - split; [constructor | reflexivity].
Qed.
Lemma Forall_dec f P l : dec f P l -> (Forall (fun x => f x = Ok tt) l <-> Forall P l).
Proof.
  intro D. rewrite !Forall_forall. split; intros H x Hx; apply (D x Hx); auto.
Qed.
Lemma dec_in f P l l' : dec f P l -> (forall x, In x l' -> In x l) -> dec f P l'.
Proof. intros D H x Hx. auto. Qed.
Lemma Forall_map_iff {A B} (f : A -> B) (P : B -> Prop) l : Forall P (map f l) <-> Forall (fun x => P (f x)) l.
Proof. apply Forall_map. Qed.
Lemma Forall_concat {A} (P : A -> Prop) ll : Forall P (concat ll) <-> Forall (Forall P) ll.
Proof.
  induction ll as [|l ll IH]; cbn [concat]; [split; constructor|].
  rewrite Forall_app, IH. split; [intros []; now constructor | inversion 1; auto].
Qed.
Lemma Forall_iff {A} (P Q : A -> Prop) l : (forall x, In x l -> (P x <-> Q x)) -> (Forall P l <-> Forall Q l).
Proof. intro H. rewrite !Forall_forall. split; intros K x Hx; apply H; auto. Qed.
Lemma Forall2_iff {A B} (P Q : A -> B -> Prop) l ts :
  (forall x t, In x l -> (P x t <-> Q x t)) -> (Forall2 P l ts <-> Forall2 Q l ts).
Proof.
  revert ts. induction l as [|x l IH]; intros ts H.
  - split; inversion 1; constructor.
  - specialize (IH).
    assert (H' : forall x t, In x l -> (P x t <-> Q x t)) by (intros; apply H; now right).
    split; inversion 1; subst; constructor; try (apply IH; auto); apply H; auto; now left.
Qed.

(** Groups of parts. *)
Lemma orders_iff f (l : list (order node)) u :
  all_ok (order_ok f) l = Ok u <-> Forall (fun x => f x = Ok tt) (map o_value l).
Proof. rewrite all_iff, Forall_map_iff. apply Forall_iff. now intros [v d n] _. Qed.
Lemma bound_iff f (b : bound node) u : bound_ok f b = Ok u <-> Forall (fun x => f x = Ok tt) (bound_kids b).
Proof.
  destruct u, b; cbn [bound_ok bound_kids]; split; intro H; try constructor; auto. now inversion H.
Qed.
Lemma window_iff f w (x : window node) u :
  window_ok f w x = Ok u <-> Forall (fun x => f x = Ok tt) (window_stored x) /\ Forall (fun x => w x = Ok tt) (window_values x).
Proof.
  destruct x as [p ob ps fr s e]. unfold window_stored, window_values. cbn [window_ok w_orderby w_partitions w_start w_end].
  rewrite !then_ok, orders_iff, all_iff, !bound_iff, !Forall_app. tauto.
Qed.
Lemma fopts_iff f w (x : fopts node) u :
  fopts_ok f w x = Ok u <-> Forall (fun x => f x = Ok tt) (fopts_stored x) /\ Forall (fun x => w x = Ok tt) (fopts_values x).
Proof.
  destruct x as [ob fi wi ig]. unfold fopts_stored, fopts_values. cbn [fopts_ok fo_orderby fo_filter fo_window].
  rewrite !then_ok, orders_iff, !opt_iff, !Forall_app. destruct wi as [w0|]; cbn [opt_kids].
  - rewrite Forall_cons_iff. rewrite (window_iff f w w0 tt). pose proof (Forall_nil (fun x => window_ok f w x = Ok tt)). tauto.
  - split; [intros (A & B & _) | intros ((A & B & _) & _)]; repeat split; auto.
Qed.
Lemma qattrs_iff f (x : qattrs node) u :
  qattrs_ok f x = Ok u <-> Forall (fun x => f x = Ok tt) (qattrs_kids x).
Proof.
  destruct x as [wi ob off lim]. cbn [qattrs_ok qattrs_kids]. rewrite then_ok, orders_iff, all_iff, Forall_app. tauto.
Qed.
Lemma group_iff f (g : group node) u :
  group_ok f g = Ok u <-> Forall (fun x => f x = Ok tt) (group_kids g) /\ group_filled g.
Proof.
  assert (N : forall {A} (l : list A), nonempty l = true <-> l <> []).
  { intros A [|a l]; cbn; split; congruence. }
  destruct g as [l|ll|l|l]; cbn [group_ok group_kids group_filled].
  - rewrite all_iff. tauto.
  - rewrite then_ok, assert_ok, all_iff, Forall_concat, N.
    assert (Forall (fun x => all_ok f x = Ok tt) ll <-> Forall (Forall (fun x => f x = Ok tt)) ll) as ->; [|tauto].
    apply Forall_iff. intros l _. apply all_iff.
  - now rewrite then_ok, assert_ok, all_iff, N.
  - now rewrite then_ok, assert_ok, all_iff, N.
Qed.
Lemma groupby_iff f (gs : list (group node)) d u :
  groupby_ok f (mkG gs d) = Ok u <-> Forall (fun x => f x = Ok tt) (groupby_kids (mkG gs d)) /\ Forall group_filled gs.
Proof.
  cbn [groupby_ok groupby_kids]. rewrite all_iff, Forall_concat, Forall_map_iff.

  split.
  - intro H. split; eapply Forall_impl; try exact H; intros g Hg; now apply group_iff in Hg.
  - intros [H1 H2]. rewrite Forall_forall in *. intros g Hg. apply group_iff. auto.
Qed.

(** * One step *)
Definition known (x : node) : Prop := forall t, check x = Ok t <-> has x t.
Lemma known_sub x : known x -> (sub x = Ok tt <-> built x).
Proof.
  intro K0. unfold sub, built. rewrite bind_ok. split.
  - intros (a & H & _). exists a. now apply K0.
  - intros (a & H). exists a. split; [now apply K0 | reflexivity].
Qed.
Lemma known_tyof x t : known x -> (tyof (check x) = Ok t <-> has x (Some t)).
Proof.
  intro K0. rewrite <- (K0 (Some t)). destruct (check x) as [[u|]|]; cbn [tyof]; split; congruence.
Qed.
Lemma known_wrapped x t : known x -> (wrapped x (check x) = Ok t <-> has x (Some t)).
Proof.
  intro K0. rewrite <- (known_tyof x t K0). unfold wrapped. destruct x; try tauto. cbn [check tyof]. split; discriminate.
Qed.
Lemma known_wsub x : known x -> (wsub x = Ok tt <-> valued x).
Proof.
  intro K0. unfold wsub, valued. rewrite bind_ok. split.
  - intros (a & H & _). exists a. now apply known_wrapped in H.
  - intros (a & H). exists a. split; [now apply known_wrapped | reflexivity].
Qed.
Lemma subs_iff l : (forall x, In x l -> known x) -> (Forall (fun x => sub x = Ok tt) l <-> Forall built l).
Proof. intro H. apply Forall_iff. intros x Hx. now apply known_sub, H. Qed.
Lemma wsubs_iff l : (forall x, In x l -> known x) -> (Forall (fun x => wsub x = Ok tt) l <-> Forall valued l).
Proof. intro H. apply Forall_iff. intros x Hx. now apply known_wsub, H. Qed.
Lemma types_iff l ts : (forall x, In x l -> known x) ->
  (each (fun x => tyof (check x)) l = Ok ts <-> Forall2 (fun x t => has x (Some t)) l ts).
Proof. intro H. rewrite each_iff. apply Forall2_iff. intros x t Hx. now apply known_tyof, H. Qed.
Lemma wtypes_iff l ts : (forall x, In x l -> known x) ->
  (each (fun x => wrapped x (check x)) l = Ok ts <-> Forall2 (fun x t => has x (Some t)) l ts).
Proof. intro H. rewrite each_iff. apply Forall2_iff. intros x t Hx. now apply known_wrapped, H. Qed.

Lemma unknown_iff t : is_unknown t = true <-> t = unknown.
Proof. unfold is_unknown. apply dtype_eqb_eq. Qed.
Lemma unknown_not t : is_unknown t = false <-> t <> unknown.
Proof. rewrite <- unknown_iff. destruct (is_unknown t); split; congruence. Qed.
Lemma mem_in x l : mem x l = true <-> In x l.
Proof.
  unfold mem. rewrite existsb_exists. split.
  - intros (y & H & ->%String.eqb_eq). exact H.
  - intro H. exists x. split; [exact H | apply String.eqb_refl].
Qed.
Lemma distinct_nodup l : distinct_names l = true <-> NoDup l.
Proof.
  induction l as [|x l IH]; cbn [distinct_names]; [split; [constructor|reflexivity]|].
  rewrite andb_true_iff, negb_true_iff, IH. split.
  - intros [H1 H2]. constructor; [|exact H2]. intro I. apply mem_in in I. congruence.
  - inversion 1; subst. split; [|assumption]. destruct (mem x l) eqn:E; [|reflexivity]. now apply mem_in in E.
Qed.
Lemma common_iff a l t : values_fold a l = Ok t <-> common a l t.
Proof.
  revert a. induction l as [|x l IH]; intro a; cbn [values_fold].
  - split; [intros [= <-]; constructor | now inversion 1].
  - rewrite bind_ok. destruct (is_unknown a) eqn:U.
    + apply unknown_iff in U. subst a. split.
      * intros (b & [= <-] & H). apply common_first. now apply IH.
      * inversion 1; subst; [|contradiction]. exists x. split; [reflexivity | now apply IH].
    + apply unknown_not in U. split.
      * intros (b & E & H). eapply common_next; eauto. now apply IH.
      * inversion 1; subst; [contradiction|]. eexists. split; [eassumption | now apply IH].
Qed.
Lemma rows_iff ls rs ts : common_row_list ls rs = Ok ts <->
  length ts = Nat.min (length ls) (length rs)
  /\ forall i, i < length ts -> common_supertype (nth i ls unknown) (nth i rs unknown) = Ok (nth i ts unknown).
Proof.
  revert rs ts. induction ls as [|l ls IH]; intros rs ts.
  - cbn [common_row_list length Nat.min]. split; [intros [= <-]; split; [reflexivity | cbn; lia]|].
    intros [H _]. now destruct ts.
  - destruct rs as [|r rs].
    { cbn [common_row_list length Nat.min]. split; [intros [= <-]; split; [reflexivity | cbn; lia]|].
      intros [H _]. now destruct ts. }
    cbn [common_row_list length Nat.min]. rewrite bind_ok. split.
    + intros (t & E & H). apply bind_inv in H as (us & Hu & H). injection H as <-. apply IH in Hu as [L N].
      cbn [length]. split; [now rewrite L|]. intros [|i] Hi; cbn [nth]; [exact E | apply N; lia].
    + intros [L N]. destruct ts as [|t ts]; [discriminate|]. cbn [length] in *. exists t.
      split; [exact (N 0 ltac:(lia))|]. assert (E : common_row_list ls rs = Ok ts); [|now rewrite E].
      apply IH. split; [lia|]. intros i Hi. exact (N (S i) ltac:(lia)).
Qed.
Lemma union_iff a b t : set_type a b = Ok t <-> union_of a b t.
Proof.
  unfold set_type. destruct (is_unknown a) eqn:Ua.
  { apply unknown_iff in Ua. subst a. cbn [orb]. split; [intros [= <-]; constructor|].
    inversion 1; subst; try reflexivity; congruence. }
  destruct (is_unknown b) eqn:Ub.
  { apply unknown_iff in Ub. subst b. cbn [orb]. split; [intros [= <-]; constructor|].
    inversion 1; subst; try reflexivity; congruence. }
  cbn [orb]. apply unknown_not in Ua, Ub. split.
  - intro H. assert (C : (exists ls rs, a = TRow ls /\ b = TRow rs) \/ ((forall l, a <> TRow l) /\ (forall l, b <> TRow l))).
    { destruct a, b; try discriminate H; (left; eauto; fail) || (right; split; congruence). }
    destruct C as [(ls & rs & -> & ->)|[Na Nb]].
    + apply bind_inv in H as (ts & E & H). injection H as <-. apply rows_iff in E as [L N]. now apply union_rows.
    + apply union_plain; auto. destruct a; try exact H; try (exfalso; eapply Na; reflexivity);
        destruct b; try exact H; exfalso; eapply Nb; reflexivity.
  - inversion 1; subst; try congruence.
    + rewrite (proj2 (rows_iff ls rs ts)); [reflexivity | auto].
    + destruct a; try assumption; try (exfalso; eapply H2; reflexivity);
        destruct b; try assumption; exfalso; eapply H3; reflexivity.
Qed.

Ltac fw H := lazymatch type of H with
  | bind _ _ = Ok _ =>
      let a := fresh "a" in let E := fresh "E" in
      apply bind_inv in H; destruct H as [a [E H]]; fw H
  | Ok _ = Ok _ => injection H as <-
  | some _ = Ok _ => let E := fresh "E" in let a := fresh "a" in apply some_ok in H; destruct H as (a & -> & E)
  | _ => idtac
  end.
Ltac inn := cbn [kids In opt_kids app jcrit_kids]; rewrite ?in_app_iff; auto 20 with datatypes.
(** What is known of the parts. *)
Ltac look IH :=
  repeat match goal with
  | H : wrapped ?x (check ?x) = Ok _ |- _ => apply (known_wrapped x) in H; [|apply IH; inn]
  | H : tyof (check ?x) = Ok _ |- _ => apply (known_tyof x) in H; [|apply IH; inn]
  | H : check ?x = Ok _ |- _ => apply (IH x) in H; [|inn]
  | H : sub ?x = Ok _ |- _ => rewrite unit_ok in H; apply (known_sub x) in H; [|apply IH; inn]; destruct H as [? H]
  | H : wsub ?x = Ok _ |- _ => rewrite unit_ok in H; apply (known_wsub x) in H; [|apply IH; inn]; destruct H as [? H]
  | H : py_assert _ = Ok _ |- _ => apply assert_ok in H
  | H : each (fun x => tyof (check x)) _ = Ok _ |- _ => apply types_iff in H; [|intros; apply IH; inn]
  | H : each (fun x => wrapped x (check x)) _ = Ok _ |- _ => apply wtypes_iff in H; [|intros; apply IH; inn]
  | H : all_ok sub _ = Ok _ |- _ => apply all_iff, subs_iff in H; [|intros; apply IH; inn]
  | H : all_ok wsub _ = Ok _ |- _ => apply all_iff, wsubs_iff in H; [|intros; apply IH; inn]
  | H : opt_ok sub _ = Ok _ |- _ => apply opt_iff, subs_iff in H; [|intros; apply IH; inn]
  | H : opt_ok wsub _ = Ok _ |- _ => apply opt_iff, wsubs_iff in H; [|intros; apply IH; inn]
  | H : all_ok (order_ok sub) _ = Ok _ |- _ => apply orders_iff, subs_iff in H; [|intros; apply IH; inn]
  | H : qattrs_ok sub _ = Ok _ |- _ => apply qattrs_iff, subs_iff in H; [|intros; apply IH; inn]
  end.
Ltac give IH :=
  repeat match goal with
  | H : has ?x (Some ?u) |- context [wrapped ?x (check ?x)] => rewrite (proj2 (known_wrapped x u (IH x ltac:(inn))) H)
  | H : has ?x (Some ?u) |- context [tyof (check ?x)] => rewrite (proj2 (known_tyof x u (IH x ltac:(inn))) H)
  | H : has ?x (Some ?u) |- context [wsub ?x] => rewrite (proj2 (known_wsub x (IH x ltac:(inn))) (ex_intro _ u H))
  | H : has ?x ?u |- context [sub ?x] => rewrite (proj2 (known_sub x (IH x ltac:(inn))) (ex_intro _ u H))
  | H : Forall2 (fun x t => has x (Some t)) ?l ?ts |- context [each (fun x => tyof (check x)) ?l] =>
      rewrite (proj2 (types_iff l ts ltac:(intros; apply IH; inn)) H)
  | H : Forall2 (fun x t => has x (Some t)) ?l ?ts |- context [each (fun x => wrapped x (check x)) ?l] =>
      rewrite (proj2 (wtypes_iff l ts ltac:(intros; apply IH; inn)) H)
  | H : Forall (fun x => exists u, has x u) ?l |- context [all_ok sub ?l] =>
      rewrite (proj2 (all_iff sub l tt) (proj2 (subs_iff l ltac:(intros; apply IH; inn)) H))
  | H : Forall (fun x => exists u, has x (Some u)) ?l |- context [all_ok wsub ?l] =>
      rewrite (proj2 (all_iff wsub l tt) (proj2 (wsubs_iff l ltac:(intros; apply IH; inn)) H))
  | H : Forall (fun x => exists u, has x u) (opt_kids ?l) |- context [opt_ok sub ?l] =>
      rewrite (proj2 (opt_iff sub l tt) (proj2 (subs_iff (opt_kids l) ltac:(intros; apply IH; inn)) H))
  | H : Forall (fun x => exists u, has x (Some u)) (opt_kids ?l) |- context [opt_ok wsub ?l] =>
      rewrite (proj2 (opt_iff wsub l tt) (proj2 (wsubs_iff (opt_kids l) ltac:(intros; apply IH; inn)) H))
  | H : Forall (fun x => exists u, has x u) (map o_value ?l) |- context [all_ok (order_ok sub) ?l] =>
      rewrite (proj2 (orders_iff sub l tt) (proj2 (subs_iff (map o_value l) ltac:(intros; apply IH; inn)) H))
  | H : Forall (fun x => exists u, has x u) (qattrs_kids ?l) |- context [qattrs_ok sub ?l] =>
      rewrite (proj2 (qattrs_iff sub l tt) (proj2 (subs_iff (qattrs_kids l) ltac:(intros; apply IH; inn)) H))
  end.
Ltac back := let H := fresh "H" in intro H; inversion H; subst; clear H.
Ltac case1 IH := split; [let H := fresh "H" in intro H; fw H; look IH; try (econstructor; eassumption) | back; give IH; try reflexivity].

Lemma tref_iff (tr : tref node) : (forall x, In x (tref_kids tr) -> known x) ->
  (tref_ok sub tr = Ok tt /\ match tr with TRVal v => negb (is_field v) | _ => true end = true
   <-> Forall (fun x => is_field x = false /\ exists u, has x u) (tref_kids tr)).
Proof.
  intro IH. destruct tr as [|s|v]; cbn [tref_ok tref_kids] in *; [split; auto; constructor | split; auto; constructor |].
  rewrite Forall_cons_iff, negb_true_iff, (known_sub v) by (apply IH; now left). unfold built. split.
  - intros [H1 H2]. repeat split; auto.
  - intros [[H1 H2] _]. auto.
Qed.

Lemma branches_iff bs ts : (forall x, In x (concat (map (fun cv => [fst cv; snd cv]) bs)) -> known x) ->
  (each (fun cv : node * node => let '(c, x) := cv in
                                 let* _ := wrapped c (check c) in wrapped x (check x)) bs = Ok ts
   <-> Forall valued (map fst bs) /\ Forall2 (fun x t => has x (Some t)) (map snd bs) ts).
Proof.
  intro IH. rewrite each_iff. revert ts. induction bs as [|[c x] bs H]; intro ts; cbn [map].
  - split; [inversion 1; split; constructor | intros [_ F]; inversion F; constructor].
  - assert (H' : forall y, In y (concat (map (fun cv : node * node => [fst cv; snd cv]) bs)) -> known y)
      by (intros y Hy; apply IH; cbn [map concat]; apply in_app_iff; now right).
    assert (Kc : known c) by (apply IH; cbn; auto). assert (Kx : known x) by (apply IH; cbn; auto).
    split.
    + inversion 1 as [|? t ? us E F]; subst. apply bind_inv in E as (u & E1 & E2). apply (H H') in F as [F1 F2].
      split; constructor; try assumption; [exists u; now apply known_wrapped | now apply known_wrapped].
    + intros [F1 F2]. inversion F1 as [|? ? [u Hu] F1']; subst. inversion F2 as [|? t ? us E F2']; subst. constructor.
      * rewrite (proj2 (known_wrapped c u Kc) Hu). cbn [bind]. now apply known_wrapped.
      * apply (H H'). now split.
Qed.
Lemma window_parts (w : window node) x : In x (window_stored w) \/ In x (window_values w) -> In x (window_kids w).
Proof.
  destruct w as [p ob ps fr s e]. unfold window_stored, window_values. cbn [window_kids w_orderby w_partitions w_start w_end].
  rewrite !in_app_iff. tauto.
Qed.
Lemma fopts_parts (fo : fopts node) x : In x (fopts_stored fo) \/ In x (fopts_values fo) -> In x (fopts_kids fo).
Proof.
  destruct fo as [ob fi wi ig]. unfold fopts_stored, fopts_values. cbn [fopts_kids fo_orderby fo_filter fo_window].
  rewrite !in_app_iff. destruct wi as [w|]; [|tauto]. pose proof (window_parts w x). tauto.
Qed.

Lemma step e : (forall x, In x (kids e) -> known x) -> known e.
Proof.
  intros IH t.
  destruct e; cbn [check];
    repeat match goal with |- context [fun x => let* _ := check x in Ok tt] => change (fun x => let* _ := check x in Ok tt) with sub
    | |- context [fun x => let* _ := wrapped x (check x) in Ok tt] => change (fun x => let* _ := wrapped x (check x) in Ok tt) with wsub
    | |- context [let* _ := check ?x in Ok tt] => change (let* _ := check x in Ok tt) with (sub x)
    | |- context [let* _ := wrapped ?x (check ?x) in Ok tt] => change (let* _ := wrapped x (check x) in Ok tt) with (wsub x) end.
  - (* None *) split; [intros [= <-]; constructor | back; reflexivity].
  - (* Literal *) split.
    + intro H. fw H. look IH. destruct l; try constructor; now apply unknown_not, negb_true_iff.
    + back; [reflexivity|]. match goal with N : _ <> unknown |- _ => apply unknown_not in N; rewrite N end. now destruct l.
  - (* Field *) split.
    + intro H. fw H. destruct a. apply assert_ok in E0. constructor. apply tref_iff; auto.
    + back. match goal with N : Forall _ _ |- _ => apply tref_iff in N; [destruct N as [-> ->] | exact IH] end. reflexivity.
  - (* AliasedValue *) split.
    + intro H. fw H. look IH. constructor; [now apply negb_true_iff | assumption].
    + back. give IH. match goal with N : is_star _ = false |- _ => rewrite N end. reflexivity.
  - (* Star *) split.
    + intro H. fw H. destruct a. apply assert_ok in E0. constructor. apply tref_iff; auto.
    + back. match goal with N : Forall _ _ |- _ => apply tref_iff in N; [destruct N as [-> ->] | exact IH] end. reflexivity.
  - (* AliasedStar *) case1 IH.
  - (* Variable *) case1 IH.
  - (* Lambda *) split.
    + intro H. fw H. look IH. econstructor; [now apply distinct_nodup | eassumption].
    + back. give IH. match goal with N : NoDup _ |- _ => apply distinct_nodup in N; rewrite N end. reflexivity.
  - (* unary *) split.
    + intro H. fw H. look IH. destruct op; cbn [unop_type];
        (apply h_sign; [auto | assumption]) || (eapply h_test; [auto | eassumption]).
    + back; give IH; match goal with N : _ \/ _ |- _ => destruct N as [-> | ->] end; reflexivity.
  - (* binary *) split.
    + intro H. fw H. look IH. destruct op; cbn [binop_type] in E1;
        try (eapply h_arith; [cbn; auto 10 | eassumption | eassumption | eassumption]);
        try (injection E1 as <-; eapply h_compare; [cbn; auto 20 | eassumption | eassumption]).
      unfold minus_type in E1. apply bind_inv in E1 as (u & E1 & E2).
      match type of E2 with (if ?b then _ else _) = _ => destruct b eqn:B end; injection E2 as <-.
      * rewrite orb_true_iff, !andb_true_iff, !mem_in, !String.eqb_eq in B. eapply h_minus_time; eassumption.
      * rewrite orb_false_iff, !andb_false_iff in B. destruct B as [B1 B2]. eapply h_minus; try eassumption.
        -- intros [X Y]. apply mem_in in X, Y. cbn beta zeta in *. destruct B1; congruence.
        -- intros [X Y]. rewrite X, Y in B2. destruct B2; discriminate.
    + back; give IH.
      * match goal with G : get_arithmetic_type _ _ = _ |- _ => rename G into G0 end.
        match goal with N : In _ _ |- _ => destruct N as [<-|[<-|[<-|[<-|[]]]]] end; cbn [bind binop_type]; rewrite G0; reflexivity.
      * match goal with G : get_arithmetic_type _ _ = _ |- _ => rename G into G0 end.
        cbn [bind binop_type]. unfold minus_type. rewrite G0. cbn [bind].
        match goal with |- some (if ?b then _ else _) = _ => destruct b eqn:B end; [|reflexivity].
        rewrite orb_true_iff, !andb_true_iff, !mem_in, !String.eqb_eq in B. exfalso. tauto.
      * match goal with G : get_arithmetic_type _ _ = _ |- _ => rename G into G0 end.
        cbn [bind binop_type]. unfold minus_type. rewrite G0. cbn [bind].
        match goal with |- some (if ?b then _ else _) = _ => destruct b eqn:B end; [reflexivity|].
        exfalso. enough (X : false = true) by discriminate. rewrite <- B.
        rewrite orb_true_iff, !andb_true_iff, !mem_in, !String.eqb_eq. assumption.
      * match goal with N : In _ _ |- _ => cbn [In] in N; repeat destruct N as [<-|N]; try contradiction end; reflexivity.
  - (* BETWEEN *) case1 IH.
  - (* ARRAY *) split.
    + intro H. fw H. look IH. destruct a; [discriminate H|]. injection H as <-. econstructor; eassumption.
    + back. give IH. reflexivity.
  - (* IN query *) case1 IH.
  - (* IN list *) case1 IH.
  - (* LIKE *) case1 IH.
  - (* type constructor *) split.
    + intro H. fw H. now constructor.
    + back. match goal with G : type_ctor_type _ _ = _ |- _ => rewrite G end. reflexivity.
  - (* row *) case1 IH.
  - (* interval *) split.
    + intro H. destruct (_ || _)%bool eqn:B.
      * injection H as <-. apply h_interval_year. rewrite orb_true_iff, !String.eqb_eq in B. cbn [In]. intuition congruence.
      * fw H. look IH. apply mem_in in E. now apply h_interval_day.
    + back.
      * match goal with N : In _ _ |- _ => destruct N as [<-|[<-|[]]] end; reflexivity.
      * match goal with N : In _ _ |- _ => destruct N as [<-|[<-|[<-|[<-|[]]]]] end; reflexivity.
  - (* CAST *) split.
    + intro H. fw H. look IH. econstructor; [now apply unknown_not, negb_true_iff | eassumption].
    + back. give IH. match goal with N : _ <> unknown |- _ => apply unknown_not in N; rewrite N end. reflexivity.
  - (* subscript *) case1 IH.
  - (* CASE *) split.
    + intro H. fw H. look IH. destruct a as [|u ts]; [discriminate H|]. injection H as <-.
      apply branches_iff in E; [|intros x Hx; apply IH; cbn [kids]; rewrite in_app_iff; now left]. destruct E as [E1' E2'].
      econstructor; [exact E1' | exact E2' | apply Forall_app; now split].
    + back.
      assert (KB : forall x, In x (concat (map (fun cv => [fst cv; snd cv]) branches)) -> known x)
        by (intros x Hx; apply IH; cbn [kids]; rewrite in_app_iff; now left).
      match goal with B : Forall2 _ (map snd _) (?t :: ?ts) |- _ =>
        assert (E : each (fun cv : node * node => let '(c, x) := cv in
                                 let* _ := wrapped c (check c) in wrapped x (check x)) branches = Ok (t :: ts))
          by (apply branches_iff; [exact KB | split; assumption]) end.
      rewrite E. cbn [bind].
      match goal with A : Forall _ (_ ++ _) |- _ => apply Forall_app in A; destruct A as [A1 A2] end. give IH. reflexivity.
  - (* function *) split.
    + intro H. fw H. look IH. apply fopts_iff in E0. destruct E0 as [F1 F2].
      apply subs_iff in F1; [|intros x Hx; apply IH; cbn [kids]; rewrite in_app_iff; right; now apply fopts_parts; left].
      apply wsubs_iff in F2; [|intros x Hx; apply IH; cbn [kids]; rewrite in_app_iff; right; now apply fopts_parts; right].
      destruct (fn_special f) eqn:Sp; [discriminate H|].
      destruct (arity_ok f (length args)) eqn:Ar; cbn [negb] in H; [|discriminate H].
      destruct (negb (is_aggregate f) && negb (fopts_empty fo))%bool eqn:Ag; [discriminate H|].
      fw H. look IH. eapply h_func; try eassumption.
      * destruct (is_aggregate f), (fopts_empty fo); auto; discriminate Ag.
      * intros -> tr u ->. cbn [count_ok] in E0. rewrite andb_true_iff, !negb_true_iff in E0. destruct E0 as [N1 N2].
        split; [now destruct (fo_orderby fo) | exact N2].
    + back. give IH. cbn [bind].
      match goal with A : Forall _ (fopts_stored _), B : Forall _ (fopts_values _) |- _ =>
        rewrite (proj2 (fopts_iff sub wsub fo tt)) end.
      2:{ split.
          - apply subs_iff; [|assumption]. intros x Hx; apply IH; cbn [kids]; rewrite in_app_iff; right; now apply fopts_parts; left.
          - apply wsubs_iff; [|assumption]. intros x Hx; apply IH; cbn [kids]; rewrite in_app_iff; right; now apply fopts_parts; right. }
      cbn [bind].
      match goal with A : fn_special f = false, B : arity_ok f _ = true |- _ => rewrite A, B end. cbn [negb].
      match goal with A : is_aggregate f = true \/ _ |- _ =>
        assert ((negb (is_aggregate f) && negb (fopts_empty fo))%bool = false) as -> by
          (destruct A as [-> | ->]; [reflexivity | now rewrite andb_false_r]) end.
      assert (count_ok f args fo = true) as ->.
      { unfold count_ok. destruct f; try reflexivity. destruct args as [|[] [|]]; try reflexivity.
        match goal with A : FCount = FCount -> _ |- _ => destruct (A eq_refl _ _ eq_refl) as [-> ->] end. reflexivity. }
      cbn [py_assert bind]. match goal with A : fn_type f _ = _ |- _ => rewrite A end. reflexivity.
  - (* date and time *) split.
    + intro H. destruct f; try discriminate H; fw H;
        (apply h_time; [cbn; auto | assumption]) || (apply h_timestamp; [cbn; auto | assumption]).
    + back; match goal with N : In _ _, G : _ = Ok _ |- _ => destruct N as [<-|[<-|[]]]; rewrite G end; reflexivity.
  - (* LISTAGG *) split.
    + intro H. fw H. look IH. econstructor; [|eassumption|eassumption]. now destruct orderby.
    + back. give IH. cbn [bind]. destruct orderby; [contradiction|reflexivity].
  - (* NORMALIZE *) case1 IH.
  - (* SELECT *)
    set (rest := opt_kids from_ ++ opt_kids wh ++ match gb with None => [] | Some g => groupby_kids g end ++ opt_kids having
                 ++ concat (map (fun nw => window_stored (snd nw)) windows) ++ qattrs_kids qa).
    set (vals := concat (map (fun nw => window_values (snd nw)) windows)).
    assert (Kw : forall x nw, In nw windows -> In x (window_kids (snd nw)) -> known x).
    { intros x nw Hn Hx. apply IH. cbn [kids]. rewrite !in_app_iff. do 5 right. left. apply in_concat.
      exists (window_kids (snd nw)). split; [now apply (in_map (fun nw => window_kids (snd nw))) | exact Hx]. }
    assert (Kr : forall x, In x rest -> known x).
    { intros x Hx. unfold rest in Hx. rewrite !in_app_iff in Hx. destruct Hx as [Hx|[Hx|[Hx|[Hx|[Hx|Hx]]]]];
        try (apply IH; cbn [kids]; rewrite !in_app_iff; tauto).
      apply in_concat in Hx as (l & Hl & Hx). apply in_map_iff in Hl as (nw & <- & Hn).
      apply (Kw x nw Hn). apply window_parts. now left. }
    assert (Kv : forall x, In x vals -> known x).
    { intros x Hx. apply in_concat in Hx as (l & Hl & Hx). apply in_map_iff in Hl as (nw & <- & Hn).
      apply (Kw x nw Hn). apply window_parts. now right. }
    assert (W : all_ok (fun nw : string * window node => let '(_, w) := nw in window_ok sub wsub w) windows = Ok tt
                <-> Forall (fun x => sub x = Ok tt) (concat (map (fun nw => window_stored (snd nw)) windows))
                    /\ Forall (fun x => wsub x = Ok tt) vals).
    { unfold vals. rewrite all_iff, !Forall_concat, !Forall_map_iff. split.
      - intro H. split; eapply Forall_impl; try exact H; intros [nm w] Hw; now apply window_iff in Hw.
      - intros [H1 H2]. rewrite Forall_forall in *. intros [nm w] Hn. apply window_iff. split; [exact (H1 _ Hn) | exact (H2 _ Hn)]. }
    assert (G : opt_ok (groupby_ok sub) gb = Ok tt
                <-> Forall (fun x => sub x = Ok tt) (match gb with None => [] | Some g => groupby_kids g end)
                    /\ match gb with None => True | Some (mkG gs _) => Forall group_filled gs end).
    { destruct gb as [[gs d]|]; cbn [opt_ok].
      - apply groupby_iff.
      - split; [intros _; split; [constructor | exact I] | reflexivity]. }
    split.
    + intro H. fw H. rewrite unit_ok in E0, E1, E2, E3, E4, E5. apply opt_iff in E0, E1, E3. apply qattrs_iff in E5.
      apply G in E2 as [E2 F]. apply W in E4 as [E4 V]. look IH.
      apply h_select; [now destruct select | assumption | | now apply wsubs_iff in V | exact F].
      fold rest. apply (subs_iff rest Kr). unfold rest. rewrite !Forall_app. tauto.
    + back. match goal with F : Forall _ (opt_kids from_ ++ _) |- _ => fold rest in F; apply (subs_iff rest Kr) in F;
        unfold rest in F; rewrite !Forall_app in F; destruct F as (F1 & F2 & F3 & F4 & F5 & F6) end.
      match goal with V : Forall _ (concat _) |- _ => fold vals in V; apply (wsubs_iff vals Kv) in V; rename V into V0 end.
      match goal with X : Forall2 _ select _ |- _ => rewrite (proj2 (types_iff select ts ltac:(intros; apply IH; inn)) X) end.
      cbn [bind].
      rewrite (proj2 (opt_iff sub from_ tt) F1), (proj2 (opt_iff sub wh tt) F2), (proj2 (opt_iff sub having tt) F4).
      rewrite (proj2 G) by (split; assumption). rewrite (proj2 W) by (split; assumption).
      rewrite (proj2 (qattrs_iff sub qa tt) F6). cbn [bind]. now destruct select.
  - (* set operation *) split.
    + intro H. destruct op; fw H; look IH.
      * destruct distinct; [|discriminate]. eapply h_set; [discriminate | eassumption..].
      * destruct distinct; [|discriminate]. eapply h_set; [discriminate | eassumption..].
      * eapply h_union; [eassumption..|]. now apply union_iff.
    + back; give IH; cbn [bind].
      * match goal with U : union_of _ _ _ |- _ => apply union_iff in U; rewrite U end. reflexivity.
      * destruct op; try reflexivity. contradiction.
  - (* TABLE *) split.
    + intro H. fw H. destruct e; try discriminate H. injection H as <-. look IH. constructor; [|assumption].
      match goal with G : has (NTable _ _ _) _ |- _ => inversion G; subst; assumption end.
    + back. give IH. reflexivity.
  - (* VALUES *) split.
    + intro H. fw H. look IH. econstructor; [eassumption..|]. now apply common_iff.
    + back. give IH. cbn [bind]. unfold values_type. match goal with U : common _ _ _ |- _ => apply common_iff in U; rewrite U end. reflexivity.
  - (* Table *) split.
    + intro H. fw H. look IH. constructor. intro C. rewrite C in E. exact E.
    + back. destruct (truthy catalog); [|reflexivity].
      match goal with U : _ -> _ |- _ => rewrite (U eq_refl) end. reflexivity.
  - (* aliased *) case1 IH.
  - (* join *) split.
    + intro H. fw H. look IH. econstructor; [eassumption..| | |].
      * destruct crit as [[cols|c0]|]; cbn [jcrit_kids opt_ok jcrit_ok] in *; try constructor; [|constructor].
        apply (known_sub c0); [apply IH; inn|]. destruct a1. exact E1.
      * intros ->. now destruct crit.
      * intros ->. destruct crit; [discriminate|reflexivity].
    + back. give IH. cbn [bind].
      assert (opt_ok (jcrit_ok sub) crit = Ok tt) as ->.
      { destruct crit as [[]|]; cbn [jcrit_kids opt_ok jcrit_ok] in *; try reflexivity.
        match goal with F : Forall _ [_] |- _ => inversion F as [|? ? [u Hu] _]; subst end. give IH. reflexivity. }
      cbn [bind]. destruct crit; [|destruct jt, natural; reflexivity].
      destruct jt, natural; try reflexivity;
        match goal with U : ?a = ?a -> Some _ = None |- _ => discriminate (U eq_refl) end.
  - (* UNNEST *) case1 IH.
  - (* LATERAL *) case1 IH.
  - (* TABLESAMPLE *) case1 IH.
Qed.

Theorem C62_types : forall e t, check e = Ok t <-> has e t.
Proof. intro e. induction e as [e IH] using kids_ind. exact (step e IH). Qed.
Print Assumptions C62_types.

Theorem C62_unique : forall e t u, has e t -> has e u -> t = u.
Proof. intros e t u H1 H2. apply C62_types in H1, H2. congruence. Qed.
Print Assumptions C62_unique.

(** Every part of what is read can be built by the rules. *)
Theorem C62_read : forall en e vs x,
  PropertiesReader.read en e -> PropertiesReader.reached e vs x -> exists t, has x t.
Proof.
  intros en e vs x H R. destruct (PropertiesReader.C58_parts_accepted en e vs x H R) as [t C]. exists t. now apply C62_types.
Qed.
Print Assumptions C62_read.

(** * The rules of single classes, spelled out *)
Definition can_build (e : node) : Prop := exists t, check e = Ok t.
Lemma can_has e : can_build e <-> exists t, has e t.
Proof. unfold can_build. split; intros [t H]; exists t; now apply C62_types. Qed.

Theorem C62_join : forall l r jt natural c,
  can_build (NJoin l r jt natural c)
  <-> can_build l /\ can_build r /\ (forall x, c = Some (JOn x) -> can_build x)
      /\ (c <> None -> jt <> JCross /\ natural = false).
Proof.
  intros l r jt natural c. rewrite !can_has. split.
  - intros [t H]. inversion H; subst. split; [eauto|]. split; [eauto|]. split.
    + intros x ->. cbn [jcrit_kids] in *. rewrite can_has.
      match goal with F : Forall _ [_] |- _ => now inversion F end.
    + intro N. split; [intros ->; auto|]. destruct natural; [|reflexivity]. now elim N; auto.
  - intros ([a A] & [b B] & X & N). exists None. econstructor; [exact A | exact B | | |].
    + destruct c as [[cols|x]|]; cbn [jcrit_kids]; try constructor; [|constructor]. apply can_has. now apply X.
    + intros ->. destruct c; [|reflexivity]. now destruct (N ltac:(discriminate)).
    + intros ->. destruct c; [|reflexivity]. now destruct (N ltac:(discriminate)).
Qed.
Print Assumptions C62_join.

(** INTERSECT and EXCEPT are DISTINCT; only UNION may keep duplicates. *)
Theorem C62_set : forall op l r d, op <> OpUnion ->
  (can_build (NSetQuery op l r d no_qattrs) <-> can_build l /\ can_build r /\ d = true).
Proof.
  intros op l r d N. rewrite !can_has. split.
  - intros [t H]. inversion H; subst; [contradiction|]. repeat split; eauto.
  - intros ([a A] & [b B] & ->). exists (Some unknown). econstructor; eauto. constructor.
Qed.
Print Assumptions C62_set.

(** One SELECT item gives its type, several give a row. *)
Theorem C62_select_type : forall sel ts,
  sel <> [] -> Forall2 (fun x t => check x = Ok (Some t)) sel ts ->
  check (NSelect sel None None None None false [] no_qattrs) = Ok (Some (match ts with [t] => t | _ => TRow ts end)).
Proof.
  intros sel ts N F. apply C62_types. apply h_select; [exact N | | constructor | constructor | exact I].
  clear N. induction F; constructor; [now apply C62_types | assumption].
Qed.
Print Assumptions C62_select_type.

(** A UNION of queries with different numbers of columns should be refused; the columns in excess are
    dropped from the type instead. *)
Theorem C62_union_columns_refuted :
  exists l r ls rs ts,
    check l = Ok (Some (TRow ls)) /\ check r = Ok (Some (TRow rs)) /\ length ls <> length rs
    /\ check (NSetQuery OpUnion l r true no_qattrs) = Ok (Some (TRow ts)) /\ length ts < length ls.
Proof.
  exists (NSelect [NLit (LInt 1) integer; NLit (LInt 2) integer; NLit (LInt 3) integer] None None None None false [] no_qattrs),
         (NSelect [NLit (LInt 1) integer; NLit (LInt 2) integer] None None None None false [] no_qattrs),
         [integer; integer; integer], [integer; integer], [integer; integer].
  split; [vm_compute; reflexivity|]. split; [vm_compute; reflexivity|]. split; [discriminate|].
  split; [vm_compute; reflexivity | cbn; lia].
Qed.
Print Assumptions C62_union_columns_refuted.

(** * Concrete cases *)
Local Definition n1 : node := NLit (LInt 1) integer.
Local Definition n2 : node := NLit (LInt 3000000000) bigint.
Local Lemma h1 : has n1 (Some integer).
Proof. apply h_lit. discriminate. Qed.
Local Lemma h2 : has n2 (Some bigint).
Proof. apply h_lit. discriminate. Qed.
Local Definition q1 : node := NSelect [n1; NLit (LStr "a") (TVarchar (Some 1%Z))] None None None None false [] no_qattrs.
Local Definition q2 : node := NSelect [NBin BAdd n1 n2; NLit (LStr "bcd") (TVarchar (Some 3%Z))] None
  (Some (NBetween n1 n1 n2)) None None true [] no_qattrs.

Example C62_types_case :
  has (NSetQuery OpUnion q1 q2 false no_qattrs) (Some (TRow [bigint; unknown]))
  /\ check (NSetQuery OpUnion q1 q2 false no_qattrs) = Ok (Some (TRow [bigint; unknown])).
Proof.
  split; [|vm_compute; reflexivity].
  assert (A : has q1 (Some (TRow [integer; TVarchar (Some 1%Z)]))).
  { apply (h_select _ _ _ _ _ _ _ _ [integer; TVarchar (Some 1%Z)]); [discriminate | | constructor | constructor | exact I].
    constructor; [exact h1|]. constructor; [apply h_lit; discriminate | constructor]. }
  assert (B : has q2 (Some (TRow [bigint; TVarchar (Some 3%Z)]))).
  { apply (h_select _ _ _ _ _ _ _ _ [bigint; TVarchar (Some 3%Z)]); [discriminate | | | constructor | exact I].
    - constructor; [|constructor; [apply h_lit; discriminate | constructor]].
      eapply h_arith; [now left | exact h1 | exact h2 | reflexivity].
    - constructor; [|constructor]. eexists. eapply h_between; [exact h1 | exact h1 | exact h2]. }
  eapply h_union; [exact A | exact B | constructor|].
  apply union_rows; [reflexivity|]. intros [|[|i]] Hi; try reflexivity. cbn in Hi. lia.
Qed.
Example C62_join_case :
  can_build (NJoin (NTable "a" None None) (NTable "b" None None) JInner false (Some (JUsing ["x"])))
  /\ ~ can_build (NJoin (NTable "a" None None) (NTable "b" None None) JInner true (Some (JUsing ["x"])))
  /\ ~ can_build (NJoin (NTable "a" None None) (NTable "b" None None) JCross false (Some (JOn n1))).
Proof.
  split; [eexists; vm_compute; reflexivity|]. split; intros [t H]; vm_compute in H; discriminate.
Qed.
Example C62_set_case : can_build (NSetQuery OpExcept q1 q2 true no_qattrs) /\ ~ can_build (NSetQuery OpExcept q1 q2 false no_qattrs).
Proof. split; [eexists; vm_compute; reflexivity | intros [t H]; vm_compute in H; discriminate]. Qed.
Example C62_values_case :
  check (NValues [n1; n2] no_qattrs) = Ok (Some bigint)
  /\ ~ can_build (NValues [n1; NLit LNone unknown] no_qattrs)
  /\ check (NValues [NLit LNone unknown; n1] no_qattrs) = Ok (Some integer).
Proof.
  split; [vm_compute; reflexivity|]. split; [intros [t H]; vm_compute in H; discriminate | vm_compute; reflexivity].
Qed.
Example C62_read_case :
  exists e, expression_from_sql Functions.bare_env "CASE WHEN a > 1 THEN 2 ELSE 3 END" = Ok e /\ has e (Some integer).
Proof. eexists. split; [vm_compute; reflexivity|]. apply C62_types. vm_compute. reflexivity. Qed.
