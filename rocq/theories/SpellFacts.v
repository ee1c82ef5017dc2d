(** The parsers do not depend on the spelling of tokens (for C55). *)
From Coq Require Import String Ascii List ZArith NArith Bool.
From Verif Require Import PyStr Types Conversions Inference Lexer TypeParser Functions Ast Walk
  Parser Spelling.
Import ListNotations.
Open Scope nat_scope.
Open Scope string_scope.

Definition sim {A} (R : A -> A -> Prop) (a b : pres A) : Prop :=
  match a, b with
  | Ok (x, r), Ok (y, r') => R x y /\ r' = map norm r
  | Err e, Err f => e = f
  | _, _ => False
  end.
Notation faithful R p := (forall ts, sim R (p ts) (p (map norm ts))).
Definition id_rel (i j : pident) : Prop := visit_ident i = visit_ident j.
Definition ty_rel (t u : ptype) : Prop := visit_type t = visit_type u.
Definition opt_rel {A} (R : A -> A -> Prop) (x y : option A) : Prop :=
  match x, y with Some a, Some b => R a b | None, None => True | _, _ => False end.

Lemma sim_bind {A B} (R : A -> A -> Prop) (S : B -> B -> Prop) a b f g :
  sim R a b ->
  (forall x y r, R x y -> sim S (f (x, r)) (g (y, map norm r))) ->
  sim S (bind a f) (bind b g).
Proof.
  destruct a as [[x r] | e], b as [[y r'] | e']; cbn [sim bind]; intros H K; try easy.
  destruct H as [H ->]. now apply K.
Qed.
Lemma sim_orelse {A} (R : A -> A -> Prop) a b f g :
  sim R a b -> sim R (f tt) (g tt) -> sim R (orelse a f) (orelse b g).
Proof.
  destruct a as [[x r] | e], b as [[y r'] | e']; cbn [sim orelse]; intros H K; try easy.
  subst e'. destruct e; cbn [sim]; easy.
Qed.
Lemma sim_ok {A} (R : A -> A -> Prop) x y r :
  R x y -> sim R (Ok (x, r)) (Ok (y, map norm r)).
Proof. intros H. split; [exact H | reflexivity]. Qed.
Lemma sim_err {A} (R : A -> A -> Prop) e : sim R (Err e) (Err e).
Proof. reflexivity. Qed.

Lemma eat_kw_norm k ts : eat_kw k (map norm ts) = option_map (map norm) (eat_kw k ts).
Proof.
  destruct ts as [|[] r]; cbn [map norm eat_kw option_map]; try reflexivity.
  destruct (String.eqb k0 k); reflexivity.
Qed.
Lemma eat_sym_norm k ts : eat_sym k (map norm ts) = option_map (map norm) (eat_sym k ts).
Proof.
  destruct ts as [|[] r]; cbn [map norm eat_sym option_map]; try reflexivity.
  destruct (String.eqb s k); reflexivity.
Qed.
Lemma kw_text_name k t : mem k non_reserved = true -> kw_text k t = t.
Proof. intros H. unfold kw_text, case_free. rewrite H. reflexivity. Qed.
Lemma kw_text_distinct t : kw_text "DISTINCT" t = t.
Proof.
  unfold kw_text. replace (case_free "DISTINCT") with false by reflexivity. reflexivity.
Qed.
Lemma upper_kw_text k t : upper (kw_text k t) = upper t.
Proof.
  unfold kw_text. destruct (case_free k); cbn [andb]; [|reflexivity].
  destruct (String.eqb (upper t) (upper k)) eqn:E; [|reflexivity].
  apply String.eqb_eq in E. now rewrite E.
Qed.
Lemma p_ident_norm : faithful id_rel p_ident.
Proof.
  intros [|[] r]; cbn [map norm p_ident]; try apply sim_err;
    try (apply sim_ok; reflexivity).
  destruct (mem k non_reserved) eqn:E; [|apply sim_err].
  rewrite (kw_text_name _ _ E). apply sim_ok. reflexivity.
Qed.

#[global] Hint Resolve p_ident_norm : sp.

Ltac look r :=
  match r with map norm ?r' => r' end.
(** One step along two runs of the same parser. *)
Ltac sm1 :=
  match goal with
  | |- sim _ (Ok _) (Ok _) => apply sim_ok
  | |- sim _ (Err _) (Err _) => apply sim_err
  | |- context [eat_kw ?k (map norm ?r)] =>
      rewrite (eat_kw_norm k r); destruct (eat_kw k r); cbn [need option_map bind]
  | |- context [eat_sym ?k (map norm ?r)] =>
      rewrite (eat_sym_norm k r); destruct (eat_sym k r); cbn [need option_map bind]
  | |- sim _ (bind _ _) (bind _ _) =>
      eapply sim_bind; [solve [eauto with sp] | cbn beta; intros ? ? ? ?; cbn beta iota]
  | |- sim _ (orelse _ _) (orelse _ _) => apply sim_orelse; cbn beta
  | |- sim _ (if ?b then _ else _) (if ?b then _ else _) => destruct b
  | H : ?x = ?y |- _ => is_var x; is_var y; subst
  end.
Ltac sm := repeat sm1.

(** Nothing read. *)
Ltac stay :=
  match goal with |- sim _ (Ok (_, ?ts)) _ => apply (sim_ok _ _ _ ts) end; reflexivity.

(** * Types *)

Lemma p_interval_field_norm : faithful eq p_interval_field.
Proof.
  intros [|[] r]; cbn [map norm p_interval_field]; try apply sim_err.
  destruct (mem k interval_fields) eqn:E; [|apply sim_err].
  rewrite kw_text_name; [apply sim_ok; reflexivity|].
  unfold mem, interval_fields in E. cbn [existsb] in E.
  repeat (apply orb_prop in E; destruct E as [E | E]; [apply String.eqb_eq in E; subst k; reflexivity|]).
  discriminate.
Qed.
Lemma p_zone_norm : faithful eq p_zone.
Proof. intros ts. unfold p_zone. sm; reflexivity. Qed.
#[global] Hint Resolve p_interval_field_norm p_zone_norm : sp.

Definition pp_rel (a b : ptparam) : Prop := visit_typeparam a = visit_typeparam b.
Definition rf_rel (a b : prowfield) : Prop := visit_rowfield a = visit_rowfield b.
Lemma p_type_suffix_norm n : forall t u ts, ty_rel t u ->
  sim ty_rel (p_type_suffix n t ts) (p_type_suffix n u (map norm ts)).
Proof.
  induction n as [|n IH]; intros t u ts H; [apply sim_err|].
  cbn [p_type_suffix].
  rewrite eat_kw_norm. destruct (eat_kw "ARRAY" ts) as [r|]; cbn [option_map]; [|now apply sim_ok].
  rewrite eat_sym_norm. destruct (eat_sym "[" r) as [r1|]; cbn [option_map].
  - destruct r1 as [|[] r2]; cbn [map norm]; try apply sim_err.
    sm1; [|apply sim_err]. apply IH. reflexivity.
  - apply IH. unfold ty_rel in *. cbn [visit_type]. now rewrite H.
Qed.

Lemma row_rel l l' : Forall2 rf_rel l l' -> ty_rel (PTRow l) (PTRow l').
Proof.
  intros H. unfold ty_rel. cbn [visit_type].
  match goal with |- bind ?a _ = bind ?b _ => assert (E : a = b) end; [|now rewrite E].
  induction H as [|a b l l' Hab H IH]; [reflexivity|].
  unfold rf_rel in Hab. rewrite Hab. now rewrite IH.
Qed.
Lemma generic_rel i j l l' : id_rel i j -> Forall2 pp_rel l l' ->
  ty_rel (PTGeneric i l) (PTGeneric j l').
Proof.
  intros Hi H. unfold ty_rel. cbn [visit_type]. rewrite Hi.
  match goal with |- bind ?a _ = bind ?b _ => assert (E : a = b) end; [|now rewrite E].
  clear Hi. induction H as [|a b l l' Hab H IH]; [reflexivity|].
  unfold pp_rel in Hab. rewrite Hab. now rewrite IH.
Qed.

Lemma types_norm n :
  faithful ty_rel (p_type n) /\ faithful ty_rel (p_type_prim n) /\ faithful ty_rel (p_generic n)
  /\ faithful pp_rel (p_typeparam n) /\ faithful (Forall2 pp_rel) (p_typeparams n)
  /\ faithful rf_rel (p_rowfield n) /\ faithful (Forall2 rf_rel) (p_rowfields n).
Proof.
  induction n as [|n (IHt & IHp & IHg & IHa & IHas & IHf & IHfs)];
    [split; [|split; [|split; [|split; [|split; [|split]]]]]; intros ts; apply sim_err|].
  split; [|split; [|split; [|split; [|split; [|split]]]]].
  - intros ts. cbn [p_type]. eapply sim_bind; [apply IHp|].
    intros x y r H. cbn beta iota. now apply p_type_suffix_norm.
  - intros ts. cbn [p_type_prim]. cbn zeta.
    destruct ts as [|[] r]; cbn [map norm];
      try match goal with |- sim _ (p_generic n ?ts) _ => exact (IHg ts) end.
    set (g := p_generic n (TKw k txt :: r)).
    set (g' := p_generic n (TKw k (kw_text k txt) :: map norm r)).
    assert (G : sim ty_rel g g') by exact (IHg (TKw k txt :: r)).
    destruct (String.eqb k "ROW").
    { sm; [|exact G|exact G].
      now apply row_rel. }
    destruct (String.eqb k "INTERVAL").
    { generalize (p_interval_field_norm r).
      destruct (p_interval_field r) as [[f r1]|e],
        (p_interval_field (map norm r)) as [[f' r1']|e']; cbn [sim]; intros H; try easy.
      destruct H as [<- ->]. sm; reflexivity. }
    destruct (String.eqb k "TIMESTAMP" || String.eqb k "TIME")%bool.
    { apply (sim_bind (opt_rel pp_rel)).
      - sm; cbn [opt_rel]; easy.
      - intros x y r1 H. cbn beta iota. sm. destruct x, y; cbn [opt_rel] in H; try easy.
        unfold ty_rel. cbn [visit_type]. now rewrite H. }
    destruct (String.eqb k "DOUBLE"). { sm; [reflexivity | exact G]. }
    destruct (String.eqb k "ARRAY"). { sm; [reflexivity | exact G]. }
    destruct (String.eqb k "MAP"). { sm; [reflexivity | exact G]. }
    exact G.
  - intros ts. cbn [p_generic]. sm; apply generic_rel; easy.
  - intros ts. cbn [p_typeparam].
    destruct ts as [|[] r]; cbn [map norm];
      try (match goal with |- sim _ (bind (p_type n ?ts) _) _ =>
             eapply sim_bind; [apply (IHt ts)|] end;
           intros x y r1 H; cbn beta iota; apply sim_ok;
           unfold pp_rel; cbn [visit_typeparam]; unfold ty_rel in H; now rewrite H).
    now apply sim_ok.
  - intros ts. cbn [p_typeparams]. sm; auto.
  - intros ts. cbn [p_rowfield]. sm; unfold rf_rel; cbn [visit_rowfield py_assert bind]; auto.
  - intros ts. cbn [p_rowfields]. sm; auto.
Qed.
Lemma p_type_norm n : faithful ty_rel (p_type n).
Proof. apply types_norm. Qed.
#[global] Hint Resolve p_type_norm : sp.

(** * Parts of expressions *)

Lemma p_sep_norm {A} (p : list token -> pres (result A)) : faithful eq p ->
  forall k, faithful eq (p_sep p k).
Proof.
  intros Hp. induction k as [|k IH]; intros ts; [apply sim_err|].
  cbn [p_sep]. sm; reflexivity.
Qed.
Lemma sep_norm {A} (p : list token -> pres (result A)) : faithful eq p -> faithful eq (sep p).
Proof. intros Hp ts. unfold sep. rewrite map_length. now apply p_sep_norm. Qed.
#[global] Hint Resolve sep_norm : sp.

Definition res_rel {A} (R : A -> A -> Prop) (x y : result A) : Prop :=
  match x, y with Ok a, Ok b => R a b | Err e, Err f => e = f | _, _ => False end.
Definition ids_rel := Forall2 id_rel.
Lemma names_norm k : faithful (res_rel ids_rel) (p_sep p_name k).
Proof.
  induction k as [|k IH]; intros ts; [apply sim_err|].
  cbn [p_sep]. unfold p_name at 1 3.
  eapply sim_bind.
  - eapply sim_bind; [apply p_ident_norm|]. intros i j r H. cbn beta iota.
    apply (sim_ok (res_rel id_rel)). exact H.
  - intros x y r H. cbn beta iota. rewrite eat_sym_norm.
    destruct (eat_sym "," r) as [r1|]; cbn [option_map].
    + eapply sim_bind; [apply IH|]. intros l l' r2 Hl. cbn beta iota. apply sim_ok.
      destruct x, y; cbn [res_rel bind] in *; try easy.
      destruct l, l'; cbn [res_rel bind] in *; try easy. now constructor.
    + apply sim_ok. destruct x, y; cbn [res_rel bind] in *; try easy.
      constructor; [exact H | constructor].
Qed.
Lemma p_idents_norm : faithful ids_rel p_idents.
Proof.
  intros ts. unfold p_idents, sep. rewrite map_length.
  eapply sim_bind; [apply names_norm|]. intros x y r H. cbn beta iota.
  destruct x, y; cbn [res_rel bind] in *; try easy.
Qed.
Lemma each_names l l' : ids_rel l l' -> each visit_ident l = each visit_ident l'.
Proof.
  induction 1 as [|i j l l' Hi H IH]; [reflexivity|].
  cbn [each]. unfold id_rel in Hi. now rewrite Hi, IH.
Qed.
Lemma v_names_rel l l' : ids_rel l l' -> v_names l = v_names l'.
Proof. apply each_names. Qed.
Lemma p_qname_tail_norm k : forall ts,
  ids_rel (fst (p_qname_tail k ts)) (fst (p_qname_tail k (map norm ts)))
  /\ snd (p_qname_tail k (map norm ts)) = map norm (snd (p_qname_tail k ts)).
Proof.
  induction k as [|k IH]; intros ts; cbn [p_qname_tail]; [split; constructor|].
  rewrite eat_sym_norm. destruct (eat_sym "." ts) as [r|]; cbn [option_map];
    [|split; constructor].
  generalize (p_ident_norm r).
  destruct (p_ident r) as [[i r1]|e], (p_ident (map norm r)) as [[j r1']|e']; cbn [sim];
    intros H; try easy; [|split; constructor].
  destruct H as [Hi ->]. specialize (IH r1).
  destruct (p_qname_tail k r1) as [l r2], (p_qname_tail k (map norm r1)) as [l' r2'].
  cbn [fst snd] in *. destruct IH as [Hl ->]. split; [now constructor | reflexivity].
Qed.
Lemma p_qname_norm : faithful ids_rel p_qname.
Proof.
  intros ts. unfold p_qname. eapply sim_bind; [apply p_ident_norm|].
  intros i j r H. cbn beta iota. rewrite map_length.
  destruct (p_qname_tail_norm (S (length r)) r) as [Hl Hr].
  destruct (p_qname_tail (S (length r)) r) as [l r2],
    (p_qname_tail (S (length r)) (map norm r)) as [l' r2'].
  cbn [fst snd] in *. subst r2'. apply sim_ok. now constructor.
Qed.
#[global] Hint Resolve p_idents_norm p_qname_norm : sp.

Definition over_rest {A} (x : A * list token) : A * list token := (fst x, map norm (snd x)).
Lemma p_string_norm ts : p_string (map norm ts) = option_map over_rest (p_string ts).
Proof.
  destruct ts as [|[] [|[] [|[] r]]]; cbn [map norm p_string option_map]; try reflexivity.
  destruct (String.eqb k "UESCAPE"); reflexivity.
Qed.
Ltac str r :=
  rewrite (p_string_norm r); destruct (p_string r) as [[? ?]|]; cbn [option_map];
  unfold over_rest; cbn [fst snd].

Lemma p_interval_norm : faithful eq p_interval.
Proof.
  intros ts. unfold p_interval. rewrite !eat_sym_norm.
  destruct (eat_sym "-" ts) as [r|]; [|destruct (eat_sym "+" ts) as [r|]]; cbn [option_map];
    cbv beta iota zeta; match goal with |- context [p_string (map norm ?r)] => str r end;
    sm; reflexivity.
Qed.
Lemma p_zone_value_norm : faithful eq p_zone_value.
Proof.
  intros ts. unfold p_zone_value. rewrite eat_kw_norm.
  destruct (eat_kw "INTERVAL" ts) as [r|]; cbn [option_map]; [apply p_interval_norm|].
  str ts; [now apply sim_ok | apply sim_err].
Qed.
Lemma at_zone_norm ts : at_zone (map norm ts) = at_zone ts.
Proof. destruct ts as [|[] [|[] [|[] r]]]; reflexivity. Qed.

Lemma p_skip_norm n ts : map norm (skipn n ts) = skipn n (map norm ts).
Proof. revert ts; induction n as [|n IH]; intros [|t ts]; cbn [skipn map]; auto. Qed.
Lemma value_loop_norm pv : (forall l, faithful eq (pv l)) ->
  forall k lvl acc, faithful eq (value_loop pv k lvl acc).
Proof.
  intros Hp. induction k as [|k IH]; intros lvl acc ts; [apply sim_err|].
  cbn [value_loop].
  assert (X : sim eq
    (if at_zone ts then
       let* (z, r) := p_zone_value (skipn 3 ts) in value_loop pv k lvl (let* _ := acc in z) r
     else Ok (acc, ts))
    (if at_zone (map norm ts) then
       let* (z, r) := p_zone_value (skipn 3 (map norm ts)) in value_loop pv k lvl (let* _ := acc in z) r
     else Ok (acc, map norm ts))).
  { rewrite at_zone_norm. destruct (at_zone ts); [|stay].
    rewrite <- p_skip_norm. eapply sim_bind; [apply p_zone_value_norm|].
    intros ? ? ? ?. subst. apply IH. }
  destruct ts as [|t r]; [apply sim_ok; reflexivity|].
  destruct t; cbn [map norm]; try exact X. clear X.
  destruct (vop_sym s) as [[p op]|]; [|stay].
  destruct (Nat.leb lvl p); [|stay].
  sm. apply IH.
Qed.
Lemma value_body_norm pv pp lvl : (forall l, faithful eq (pv l)) -> faithful eq pp ->
  faithful eq (value_body pv pp lvl).
Proof.
  intros Hv Hp ts. unfold value_body. cbn zeta.
  apply (sim_bind eq).
  - destruct ts as [|t r]; [exact (Hp [])|].
    destruct t; cbn [map norm]; try exact (Hp (_ :: r)).
    destruct (String.eqb s "-").
    + destruct r as [|t r]; cbn [map norm].
      * eapply sim_bind; [exact (Hv 4 [])|]. intros; sm; reflexivity.
      * replace (is_number (norm t)) with (is_number t) by (destruct t; reflexivity).
        destruct (is_number t); [exact (Hp (TSym s :: t :: r))|].
        eapply sim_bind; [exact (Hv 4 (t :: r))|]. intros; sm; reflexivity.
    + destruct (String.eqb s "+"); [|exact (Hp (TSym s :: r))].
      sm; reflexivity.
  - intros x y r <-. cbn beta iota. rewrite map_length. now apply value_loop_norm.
Qed.
Lemma bool_loop_norm pb : (forall l, faithful eq (pb l)) ->
  forall k lvl acc, faithful eq (bool_loop pb k lvl acc).
Proof.
  intros Hp. induction k as [|k IH]; intros lvl acc ts; [apply sim_err|].
  cbn [bool_loop].
  destruct ts as [|t r]; [apply sim_ok; reflexivity|].
  destruct t; cbn [map norm]; try stay.
  destruct (String.eqb k0 "AND" && Nat.leb lvl 2)%bool.
  { sm. apply IH. }
  destruct (String.eqb k0 "OR" && Nat.leb lvl 1)%bool.
  { sm. apply IH. }
  stay.
Qed.
Lemma pred_tail_norm pe pv pq neg left k :
  faithful eq pe -> faithful eq pv -> faithful eq pq -> faithful eq (pred_tail pe pv pq neg left k).
Proof.
  intros He Hv Hq ts. unfold pred_tail.
  destruct (String.eqb k "BETWEEN"). { sm; reflexivity. }
  destruct (String.eqb k "IN"). { sm; reflexivity. }
  destruct (String.eqb k "LIKE"). { sm; reflexivity. }
  apply sim_err.
Qed.
#[global] Hint Resolve pred_tail_norm : sp.
Lemma predicate_norm pe pv pq left :
  faithful eq pe -> faithful eq pv -> faithful eq pq -> faithful eq (predicate pe pv pq left).
Proof.
  intros He Hv Hq ts. unfold predicate.
  destruct ts as [|t r]; [now apply sim_ok|].
  destruct t; cbn [map norm]; try stay.
  - destruct (String.eqb k "NOT").
    { destruct r as [|[] r]; cbn [map norm]; try apply sim_err. now apply pred_tail_norm. }
    destruct (String.eqb k "IS").
    { rewrite (eat_kw_norm "NOT"). destruct (eat_kw "NOT" r); cbn [option_map]; cbv zeta beta iota;
        sm; reflexivity. }
    destruct (is_tail_kw k); [now apply pred_tail_norm | stay].
  - destruct (cmp_sym s); [|stay].
    sm; [reflexivity|].
    destruct r as [|[] r]; cbn [map norm]; try apply sim_err.
    destruct (mem k _); [|apply sim_err]. sm; reflexivity.
Qed.
#[global] Hint Resolve predicate_norm : sp.
Lemma bool_body_norm pb pv pq lvl : (forall l, faithful eq (pb l)) -> faithful eq pv ->
  faithful eq pq -> faithful eq (bool_body pb pv pq lvl).
Proof.
  intros Hb Hv Hq ts. unfold bool_body. apply (sim_bind eq).
  - sm; [reflexivity | now apply predicate_norm].
  - intros x y r <-. cbn beta iota. rewrite map_length. now apply bool_loop_norm.
Qed.

(** * Calls *)

Lemma p_sort_norm pe : faithful eq pe -> faithful eq (p_sort pe).
Proof.
  intros He ts. unfold p_sort. sm1. subst.
  rewrite (eat_kw_norm "ASC"), (eat_kw_norm "DESC").
  destruct (eat_kw "ASC" r); [|destruct (eat_kw "DESC" r)]; cbn [option_map];
    cbv beta iota zeta; sm; reflexivity.
Qed.
#[global] Hint Resolve p_sort_norm : sp.
Lemma p_orderby_norm pe : faithful eq pe -> faithful eq (p_orderby pe).
Proof. intros He ts. unfold p_orderby. sm; reflexivity. Qed.
Lemma p_direction_norm : faithful eq p_direction.
Proof. intros ts. unfold p_direction. sm; reflexivity. Qed.
#[global] Hint Resolve p_orderby_norm p_direction_norm : sp.
Lemma p_bound_norm pe : faithful eq pe -> faithful eq (p_bound pe).
Proof. intros He ts. unfold p_bound. sm; reflexivity. Qed.
#[global] Hint Resolve p_bound_norm : sp.
Lemma p_frame_norm pe f : faithful eq pe -> faithful eq (p_frame pe f).
Proof. intros He ts. unfold p_frame. sm; reflexivity. Qed.
Lemma frame_ahead_norm ts : frame_ahead (map norm ts) = option_map over_rest (frame_ahead ts).
Proof.
  destruct ts as [|[] r]; cbn [map norm frame_ahead option_map]; try reflexivity.
  destruct (frame_kw k); reflexivity.
Qed.
Lemma window_name_ahead_norm ts : window_name_ahead (map norm ts) = window_name_ahead ts.
Proof.
  destruct ts as [|[] r]; cbn [map norm window_name_ahead]; try reflexivity.
  rewrite eat_kw_norm. destruct (eat_kw "BY" r); cbn [option_map];
    destruct (frame_kw k); destruct r as [|[] r]; reflexivity.
Qed.
#[global] Hint Resolve p_frame_norm : sp.
Lemma v_winspec_rel i j parts ob fr : opt_rel id_rel i j ->
  v_winspec i parts ob fr = v_winspec j parts ob fr.
Proof.
  intros H. unfold v_winspec. destruct i, j; cbn [opt_rel] in H; try easy.
  unfold id_rel in H. now rewrite H.
Qed.
Lemma p_winspec_norm pe : faithful eq pe -> faithful eq (p_winspec pe).
Proof.
  intros He ts. unfold p_winspec. rewrite window_name_ahead_norm.
  apply (sim_bind (opt_rel id_rel)).
  - destruct (window_name_ahead ts); sm; cbn [opt_rel]; auto.
  - intros i j r Hi. cbn beta iota. apply (sim_bind eq).
    + sm; reflexivity.
    + intros x y r1 <-. cbn beta iota. sm1. subst. rewrite frame_ahead_norm.
      destruct (frame_ahead r0) as [[f r3]|]; cbn [option_map]; unfold over_rest; cbn [fst snd];
        sm; now apply v_winspec_rel.
Qed.
#[global] Hint Resolve p_winspec_norm : sp.
Lemma p_over_norm pe : faithful eq pe -> faithful eq (p_over pe).
Proof.
  intros He ts. unfold p_over. rewrite eat_kw_norm.
  destruct (eat_kw "OVER" ts) as [r|]; cbn [option_map]; [|stay].
  rewrite eat_sym_norm. destruct (eat_sym "(" r) as [r1|]; cbn [option_map].
  - sm; reflexivity.
  - generalize (p_ident_norm r).
    destruct (p_ident r) as [[i r1]|e], (p_ident (map norm r)) as [[j r1']|e']; cbn [sim];
      intros H; try easy.
    destruct H as [H ->]. split; [|reflexivity]. unfold id_rel in H. now rewrite H.
Qed.
Lemma p_filter_norm pe : faithful eq pe -> faithful eq (p_filter pe).
Proof.
  intros He ts. unfold p_filter. rewrite eat_kw_norm.
  destruct (eat_kw "FILTER" ts) as [r|]; cbn [option_map]; [|stay].
  rewrite eat_sym_norm. destruct (eat_sym "(" r) as [r1|]; cbn [option_map]; [|stay].
  sm; reflexivity.
Qed.
#[global] Hint Resolve p_over_norm p_filter_norm : sp.
Ltac idn r :=
  generalize (p_ident_norm r);
  destruct (p_ident r) as [[? ?]|?], (p_ident (map norm r)) as [[? ?]|?]; cbn [sim];
  intros ?; try easy.
Lemma measure_ahead_norm ts : measure_ahead (map norm ts) = measure_ahead ts.
Proof.
  unfold measure_ahead. rewrite eat_kw_norm.
  destruct (eat_kw "OVER" ts) as [r|]; cbn [option_map]; [|reflexivity].
  rewrite eat_sym_norm. destruct (eat_sym "(" r) as [r1|]; cbn [option_map]; [reflexivity|].
  idn r.
Qed.
Lemma p_null_treatment_norm ts :
  p_null_treatment (map norm ts) = over_rest (p_null_treatment ts).
Proof.
  destruct ts as [|[] [|[] r]]; cbn [map norm p_null_treatment]; try reflexivity.
  rewrite measure_ahead_norm.
  match goal with |- (if ?b then _ else _) = _ => destruct b end; reflexivity.
Qed.
Lemma starts_expr_norm ts : starts_expr (map norm ts) = starts_expr ts.
Proof. destruct ts as [|[] r]; reflexivity. Qed.
Lemma p_quant_norm ts : p_quant (map norm ts) = over_rest (p_quant ts).
Proof.
  destruct ts as [|[] r]; cbn [map norm p_quant]; try reflexivity.
  rewrite starts_expr_norm.
  destruct (String.eqb k "DISTINCT") eqn:E.
  - apply String.eqb_eq in E. subst k. now rewrite kw_text_distinct.
  - destruct (String.eqb k "ALL") eqn:E2; cbn [andb]; [|reflexivity].
    apply String.eqb_eq in E2. subst k. rewrite (kw_text_name "ALL") by reflexivity.
    destruct (starts_expr r); [reflexivity|]. unfold over_rest. cbn [fst snd map norm].
    now rewrite (kw_text_name "ALL") by reflexivity.
Qed.
Lemma star_ident_norm ts :
  match p_ident (map norm ts) with
  | Ok (i, TSym d :: TSym a :: TSym b :: r) =>
      if (String.eqb d "." && String.eqb a "*" && String.eqb b ")")%bool
      then Some ((let* l := visit_ident i in mk (NStar (TRStr l) unknown)), r) else None
  | _ => None
  end = option_map over_rest
  match p_ident ts with
  | Ok (i, TSym d :: TSym a :: TSym b :: r) =>
      if (String.eqb d "." && String.eqb a "*" && String.eqb b ")")%bool
      then Some ((let* l := visit_ident i in mk (NStar (TRStr l) unknown)), r) else None
  | _ => None
  end.
Proof.
  generalize (p_ident_norm ts).
  destruct (p_ident ts) as [[i r1]|e], (p_ident (map norm ts)) as [[j r1']|e']; cbn [sim];
    intros H; try easy.
  destruct H as [H ->]. unfold id_rel in H.
  destruct r1 as [|[] r1]; cbn [map norm]; try reflexivity.
  destruct r1 as [|[] r1]; cbn [map norm]; try reflexivity.
  destruct r1 as [|[] r]; cbn [map norm]; try reflexivity.
  rewrite H. destruct (_ && _)%bool; reflexivity.
Qed.
Lemma star_ahead_norm ts : star_ahead (map norm ts) = option_map over_rest (star_ahead ts).
Proof.
  destruct ts as [|t ts]; [reflexivity|].
  destruct t; cbn [map norm star_ahead];
    try match goal with |- _ = option_map _ (match p_ident ?ts with _ => _ end) =>
          exact (star_ident_norm ts) end.
  destruct ts as [|t ts]; [reflexivity|].
  destruct t; cbn [map norm]; try reflexivity.
  destruct (_ && _)%bool; reflexivity.
Qed.
Lemma no_args_ahead_norm ts : no_args_ahead (map norm ts) = no_args_ahead ts.
Proof. destruct ts as [|[] r]; reflexivity. Qed.
Lemma v_call_rel en l l' c : ids_rel l l' -> v_call en l c = v_call en l' c.
Proof. intros H. unfold v_call. now rewrite (v_names_rel _ _ H). Qed.
Lemma p_call_norm en pe l l' ts : ids_rel l l' -> faithful eq pe ->
  sim eq (p_call en pe l ts) (p_call en pe l' (map norm ts)).
Proof.
  intros Hl He. unfold p_call. rewrite star_ahead_norm.
  destruct (star_ahead ts) as [[s r]|]; cbn [option_map].
  - unfold over_rest. cbn [fst snd]. sm. now apply v_call_rel.
  - apply (sim_bind eq).
    + rewrite no_args_ahead_norm. destruct (no_args_ahead ts); [stay|].
      rewrite p_quant_norm. destruct (p_quant ts) as [q r]. unfold over_rest. cbn [fst snd].
      now apply sep_norm.
    + intros x y r1 <-. cbn beta iota. sm.
      match goal with |- context [p_null_treatment (map norm ?r)] =>
        rewrite (p_null_treatment_norm r); destruct (p_null_treatment r) as [nt r5] end.
      unfold over_rest. cbn [fst snd]. sm. now apply v_call_rel.
Qed.

(** Parsers that may read a string, as an outer [match]. *)
Lemma p_overflow_norm : faithful eq p_overflow.
Proof.
  intros ts. unfold p_overflow. sm.
  - reflexivity.
  - str l; (apply (sim_bind eq); [sm; reflexivity|]); intros x y r9 <-; cbn beta iota; sm; reflexivity.
Qed.
#[global] Hint Resolve p_overflow_norm : sp.
Lemma p_listagg_norm pe : faithful eq pe -> faithful eq (p_listagg pe).
Proof.
  intros He ts. unfold p_listagg. rewrite p_quant_norm. destruct (p_quant ts) as [q r].
  unfold over_rest. cbn [fst snd]. sm1. subst.
  apply (sim_bind eq).
  { rewrite eat_sym_norm. destruct (eat_sym "," r0) as [r2|]; cbn [option_map]; [|stay].
    str r2; sm; reflexivity. }
  intros sp sp' r2 <-. cbn beta iota. apply (sim_bind eq); [sm; reflexivity|].
  intros ov ov' r3 <-. cbn beta iota. sm. destruct y0; sm; reflexivity.
Qed.
Lemma p_whens_norm pe : faithful eq pe -> forall k, faithful eq (p_whens pe k).
Proof.
  intros He. induction k as [|k IH]; intros ts; [apply sim_err|].
  cbn [p_whens]. sm; reflexivity.
Qed.
#[global] Hint Resolve p_listagg_norm p_whens_norm : sp.
Lemma p_case_norm pe : faithful eq pe -> faithful eq (p_case pe).
Proof.
  intros He ts. unfold p_case. apply (sim_bind eq); [sm; reflexivity|].
  intros x y r <-. cbn beta iota. rewrite map_length.
  eapply sim_bind; [now apply p_whens_norm|]. intros ws ws' r1 <-. cbn beta iota.
  apply (sim_bind eq); [sm; reflexivity|]. intros el el' r2 <-. cbn beta iota. sm. reflexivity.
Qed.
Lemma v_cast_rel b e t u : ty_rel t u -> v_cast b e t = v_cast b e u.
Proof. intros H. unfold v_cast. unfold ty_rel in H. now rewrite H. Qed.
Lemma p_cast_norm pe b : faithful eq pe -> faithful eq (p_cast pe b).
Proof.
  intros He ts. unfold p_cast. sm. unfold type_fuel at 2. rewrite map_length. fold (type_fuel l).
  sm. now apply v_cast_rel.
Qed.
#[global] Hint Resolve p_case_norm p_cast_norm p_interval_norm : sp.

Definition lam_rel (a b : option (list pident * list token)) : Prop :=
  match a, b with
  | Some (l, r), Some (l', r') => ids_rel l l' /\ r' = map norm r
  | None, None => True
  | _, _ => False
  end.
Lemma lambda_idents_norm ts :
  lam_rel
  match p_idents ts with
  | Ok (l, TSym a :: TSym b :: r) =>
      if (String.eqb a ")" && String.eqb b "->")%bool then Some (l, r) else None
  | _ => None
  end
  match p_idents (map norm ts) with
  | Ok (l, TSym a :: TSym b :: r) =>
      if (String.eqb a ")" && String.eqb b "->")%bool then Some (l, r) else None
  | _ => None
  end.
Proof.
  generalize (p_idents_norm ts).
  destruct (p_idents ts) as [[l r]|e], (p_idents (map norm ts)) as [[l' r']|e']; cbn [sim lam_rel];
    intros H; try easy.
  destruct H as [H ->].
  destruct r as [|[] [|[] r]]; cbn [map norm lam_rel]; try exact Logic.I.
  destruct (_ && _)%bool; cbn [lam_rel]; easy.
Qed.
Lemma lambda_ahead_norm ts : lam_rel (lambda_ahead ts) (lambda_ahead (map norm ts)).
Proof.
  destruct ts as [|t ts]; [exact Logic.I|].
  destruct t; cbn [map norm lambda_ahead];
    try match goal with |- lam_rel (match p_idents ?ts with _ => _ end) _ =>
          exact (lambda_idents_norm ts) end.
  destruct ts as [|t ts]; [exact Logic.I|].
  destruct t; cbn [map norm]; try exact Logic.I.
  destruct (_ && _)%bool; cbn [lam_rel]; [split; constructor | exact Logic.I].
Qed.
Lemma query_ahead_norm ts : query_ahead (map norm ts) = query_ahead ts.
Proof.
  induction ts as [|[] ts IH]; cbn [map norm query_ahead]; try reflexivity.
  now rewrite IH.
Qed.
Lemma v_lambda_rel l l' b : ids_rel l l' -> v_lambda l b = v_lambda l' b.
Proof. intros H. unfold v_lambda. now rewrite (each_names _ _ H). Qed.
Lemma p_paren_norm pe pq : faithful eq pe -> faithful eq pq -> faithful eq (p_paren pe pq).
Proof.
  intros He Hq ts. unfold p_paren. cbn zeta.
  generalize (lambda_ahead_norm ts).
  destruct (lambda_ahead ts) as [[l r]|], (lambda_ahead (map norm ts)) as [[l' r']|];
    cbn [lam_rel]; intros H; try easy.
  - destruct H as [H ->]. sm. now apply v_lambda_rel.
  - rewrite query_ahead_norm. destruct (query_ahead ts); sm; reflexivity.
Qed.
Lemma p_datetime_norm en n n' ts : upper n = upper n' ->
  sim eq (p_datetime en n ts) (p_datetime en n' (map norm ts)).
Proof.
  intros H. assert (E : forall p, v_datetime en n p = v_datetime en n' p).
  { intros p. unfold v_datetime. now rewrite H. }
  unfold p_datetime.
  destruct ts as [|t ts]; [apply sim_ok; apply E|].
  destruct t; cbn [map norm]; try (split; [apply E | reflexivity]).
  destruct ts as [|t ts]; [split; [apply E | reflexivity]|].
  destruct t; cbn [map norm]; try (split; [apply E | reflexivity]).
  destruct ts as [|t ts]; [split; [apply E | reflexivity]|].
  destruct t; cbn [map norm]; try (split; [apply E | reflexivity]).
  destruct (_ && _)%bool; (split; [apply E | reflexivity]).
Qed.
Lemma p_normalize_norm pv : faithful eq pv -> faithful eq (p_normalize pv).
Proof.
  intros Hv ts. unfold p_normalize. sm1; [|apply sim_err]. sm1. subst.
  rewrite eat_sym_norm. destruct (eat_sym "," r) as [r2|]; cbn [option_map].
  - destruct r2 as [|[] r2]; cbn [map norm bind]; try apply sim_err.
    destruct (mem k _); cbn [bind]; [|apply sim_err]. sm; reflexivity.
  - cbn [bind]. sm; reflexivity.
Qed.
#[global] Hint Resolve p_paren_norm p_normalize_norm : sp.
Lemma none_after_rel l l' : ids_rel l l' ->
  none_after (map visit_ident l) = none_after (map visit_ident l').
Proof.
  induction 1 as [|i j l l' Hi H IH]; [reflexivity|]. unfold id_rel in Hi.
  cbn [map none_after]. now rewrite Hi, IH.
Qed.
Lemma p_close_norm l : faithful eq (p_close l).
Proof. intros ts. unfold p_close. sm; reflexivity. Qed.
#[global] Hint Resolve p_close_norm : sp.
Lemma p_position_norm pv : faithful eq pv -> faithful eq (p_position pv).
Proof. intros Hv ts. unfold p_position. sm. apply p_close_norm. Qed.
Lemma p_trim_rest_norm pv b : faithful eq pv -> faithful eq (p_trim_rest pv b).
Proof. intros Hv ts. unfold p_trim_rest. sm; apply p_close_norm. Qed.
#[global] Hint Resolve p_trim_rest_norm : sp.
Lemma trims_norm ts : trims (map norm ts) = option_map (map norm) (trims ts).
Proof. destruct ts as [|[] r]; cbn [map norm trims]; try reflexivity. now destruct (mem k _). Qed.
Lemma p_trim_norm pv : faithful eq pv -> faithful eq (p_trim pv).
Proof.
  intros Hv ts. unfold p_trim. sm1; [|apply sim_err]. rewrite trims_norm.
  destruct (trims l); cbn [option_map]; [apply sim_orelse|]; now apply p_trim_rest_norm.
Qed.
Lemma p_substring_norm pv : faithful eq pv -> faithful eq (p_substring pv).
Proof. intros Hv ts. unfold p_substring. sm; apply p_close_norm. Qed.
Lemma p_extract_norm pv : faithful eq pv -> faithful eq (p_extract pv).
Proof.
  intros Hv ts. unfold p_extract. sm.
  match goal with H : id_rel _ _ |- _ => unfold id_rel in H; now rewrite H end.
Qed.
Lemma p_grouping_args_norm k : forall l l' ts, ids_rel l l' ->
  sim eq (p_grouping_args k l ts) (p_grouping_args k l' (map norm ts)).
Proof.
  induction k as [|k IH]; intros l l' ts H; [apply sim_err|]. cbn [p_grouping_args].
  eapply sim_bind; [apply p_qname_norm|]. intros x y r Hx. cbn beta iota.
  assert (X : ids_rel (l ++ x) (l' ++ y)) by now apply Forall2_app.
  rewrite eat_sym_norm. destruct (eat_sym "," r) as [r1|]; cbn [option_map]; [now apply IH|].
  sm. now apply none_after_rel.
Qed.
Lemma p_grouping_norm : faithful eq p_grouping.
Proof.
  intros ts. unfold p_grouping. sm1; [|apply sim_err]. rewrite eat_sym_norm.
  destruct (eat_sym ")" l); cbn [option_map]; [now apply sim_ok|]. rewrite map_length.
  apply p_grouping_args_norm. constructor.
Qed.
#[global] Hint Resolve p_position_norm p_trim_norm p_substring_norm p_extract_norm p_grouping_norm : sp.
Lemma p_shape_norm pe pq h : faithful eq pe -> faithful eq pq -> faithful eq (p_shape pe pq h).
Proof.
  intros He Hq. induction h; intros ts; cbn [p_shape].
  - now apply sim_ok.
  - sm; reflexivity.
  - sm; reflexivity.
  - sm. reflexivity.
  - unfold type_fuel at 2. rewrite map_length. fold (type_fuel ts). sm. match goal with H : ty_rel _ _ |- _ => unfold ty_rel in H; now rewrite H end.
  - str ts. { now apply sim_ok. } apply sim_err.
  - sm. match goal with H : id_rel _ _ |- _ => unfold id_rel in H; now rewrite H end.
  - eapply sim_bind; [apply p_qname_norm|]. intros x y r Hx. cbn beta iota. apply sim_ok. unfold v_names. now rewrite (each_names _ _ Hx).
  - sm. reflexivity.
  - sm. reflexivity.
  - destruct ts as [|[] ts]; cbn [map norm]; try apply sim_err; match goal with |- context [if ?b then _ else _] => destruct b end;
      try apply sim_err; split; reflexivity.
  - sm1; [|apply sim_err]. eapply sim_bind; [apply IHh|]. intros x y r ->. cbn beta iota. sm; reflexivity.
  - eapply sim_bind; [apply IHh1|]. intros x y r ->. cbn beta iota. eapply sim_bind; [apply IHh2|].
    intros x' y' r' ->. cbn beta iota. now apply sim_ok.
  - apply sim_orelse; [apply IHh|]. now apply sim_ok.
  - apply sim_orelse; [apply IHh1|apply IHh2].
  - eapply sim_bind; [apply sep_norm; exact IHh|]. intros x y r ->. cbn beta iota. now apply sim_ok.
Qed.
Lemma p_shapes_norm pe pq l : faithful eq pe -> faithful eq pq -> faithful eq (p_shapes pe pq l).
Proof.
  intros He Hq. induction l as [|h l IH]; intros ts; [apply sim_err|]. cbn [p_shapes]. apply sim_orelse; [|apply IH].
  eapply sim_bind; [now apply p_shape_norm|]. intros x y r ->. cbn beta iota. sm; reflexivity.
Qed.
Lemma p_json_norm pe pq k : faithful eq pe -> faithful eq pq -> faithful eq (p_json pe pq k).
Proof. intros He Hq ts. unfold p_json. sm1; [|apply sim_err]. now apply p_shapes_norm. Qed.
#[global] Hint Resolve p_shapes_norm p_json_norm : sp.
Lemma v_type_ctor_rel i j s : id_rel i j -> v_type_ctor i s = v_type_ctor j s.
Proof. intros H. unfold v_type_ctor. unfold id_rel in H. now rewrite H. Qed.
Lemma p_ident_first_norm en pe i j ts r : faithful eq pe -> id_rel i j ->
  sim eq (p_ident_first en pe i ts r) (p_ident_first en pe j (map norm ts) (map norm r)).
Proof.
  intros He H. unfold p_ident_first. str r.
  { apply sim_ok. now apply v_type_ctor_rel. }
  rewrite eat_sym_norm. destruct (eat_sym "->" r) as [r1|]; cbn [option_map].
  { sm. apply v_lambda_rel. constructor; [exact H | constructor]. }
  sm1. rewrite eat_sym_norm. destruct (eat_sym "(" r0) as [r2|]; cbn [option_map].
  - now apply p_call_norm.
  - apply sim_ok. unfold id_rel in H. now rewrite H.
Qed.
Definition okw_rel (a b : option vres) : Prop :=
  match a, b with Some v, Some w => sim eq v w | None, None => True | _, _ => False end.
Lemma p_keyword_norm en pe pv pq k t t' r : faithful eq pe -> faithful eq pv -> faithful eq pq ->
  upper t = upper t' ->
  okw_rel (p_keyword en pe pv pq k t r) (p_keyword en pe pv pq k t' (map norm r)).
Proof.
  intros He Hv Hq Ht. unfold p_keyword.
  repeat match goal with |- okw_rel (if ?b then _ else _) _ => destruct b; cbn [okw_rel]; [sm; try reflexivity; eauto with sp; fail|] end.
  all: cbn [okw_rel]; auto.
  - destruct (mem k _); cbn [okw_rel]; [now apply p_datetime_norm|].
    destruct (String.eqb k "CURRENT_DATE"); cbn [okw_rel].
    { apply sim_ok. unfold v_datetime. now rewrite Ht. }
    repeat match goal with |- okw_rel (if String.eqb _ _ then _ else _) _ =>
      match goal with |- okw_rel (if ?b then _ else _) _ => destruct b; cbn [okw_rel]; [solve [auto with sp]|] end end.
    destruct (mem k _); cbn [okw_rel]; [now apply p_json_norm|].
    destruct (bare_fn k); cbn [okw_rel]; [now apply sim_ok | exact Logic.I].
Qed.
Lemma p_soft_norm en pe pv k : faithful eq pe -> faithful eq pv -> faithful eq (p_soft en pe pv k).
Proof.
  intros He Hv ts. unfold p_soft.
  destruct (String.eqb k "INTERVAL"); [apply p_interval_norm|].
  destruct (String.eqb k "DOUBLE").
  { rewrite eat_kw_norm. destruct (eat_kw "PRECISION" ts) as [r|]; cbn [option_map]; [|apply sim_err].
    str r; sm; reflexivity. }
  destruct (String.eqb k "ROW"). { sm; reflexivity. }
  destruct (String.eqb k "ARRAY"). { sm; reflexivity. }
  destruct (String.eqb k "TRY_CAST"); [now apply p_cast_norm|].
  destruct (String.eqb k "POSITION"); [now apply p_position_norm|].
  destruct (mem k _); [|apply sim_err]. sm1. sm1; [|apply sim_err].
  eapply sim_bind; [now apply p_call_norm|]. intros. cbn beta iota. now apply sim_ok.
Qed.
Lemma p_last_norm pv : faithful eq pv -> faithful eq (p_last pv).
Proof.
  intros Hv [|[] r]; cbn [map norm p_last]; try apply sim_err.
  destruct (String.eqb k "SUBSTRING"); [now apply p_substring_norm | apply sim_err].
Qed.
Lemma p_name_first_norm en pe pv : faithful eq pe -> faithful eq pv -> faithful eq (p_name_first en pe pv).
Proof.
  intros He Hv ts. unfold p_name_first. sm1. rewrite measure_ahead_norm.
  destruct (measure_ahead r); [apply sim_err|]. apply sim_orelse.
  - now apply p_ident_first_norm.
  - now apply p_last_norm.
Qed.
Lemma v_number_norm b t : v_number b (norm t) = v_number b t.
Proof. destruct t; reflexivity. Qed.
Lemma prim_head_norm en pe pv pq : faithful eq pe -> faithful eq pv -> faithful eq pq ->
  faithful eq (prim_head en pe pv pq).
Proof.
  intros He Hv Hq ts. unfold prim_head.
  destruct ts as [|t r]; [exact (p_name_first_norm en pe pv He Hv [])|].
  destruct t; cbn [map norm hd];
    try match goal with |- sim _ (p_name_first _ _ _ ?ts) _ => exact (p_name_first_norm en pe pv He Hv ts) end.
  - generalize (p_keyword_norm en pe pv pq k txt (kw_text k txt) r He Hv Hq
                  (eq_sym (upper_kw_text k txt))).
    destruct (p_keyword en pe pv pq k txt r), (p_keyword en pe pv pq k (kw_text k txt) (map norm r));
      cbn [okw_rel]; intros H; try easy.
    apply sim_orelse; [now apply p_soft_norm|].
    exact (p_name_first_norm en pe pv He Hv (TKw k txt :: r)).
  - generalize (p_string_norm (TString txt :: r)). cbn [map norm]. intros ->.
    destruct (p_string _) as [[s r1]|]; cbn [option_map]; [|apply sim_err].
    unfold over_rest; cbn [fst snd]. now apply sim_ok.
  - generalize (p_string_norm (TUniString txt :: r)). cbn [map norm]. intros ->.
    destruct (p_string _) as [[s r1]|]; cbn [option_map]; [|apply sim_err].
    unfold over_rest; cbn [fst snd]. now apply sim_ok.
  - now apply sim_ok.
  - destruct (v_number false (TInt txt)); [now apply sim_ok | apply sim_err].
  - destruct (v_number false (TDec txt)); [now apply sim_ok | apply sim_err].
  - destruct (v_number false (TDbl txt)); [now apply sim_ok | apply sim_err].
  - destruct (String.eqb s "-").
    { destruct r as [|t r]; cbn [map norm]; [apply sim_err|]. rewrite v_number_norm.
      destruct (v_number true t); [now apply sim_ok | apply sim_err]. }
    destruct (String.eqb s "("); [now apply p_paren_norm|].
    destruct (String.eqb s "?"); [now apply sim_ok | apply sim_err].
Qed.
Lemma v_dereference_rel b i j : id_rel i j -> v_dereference b i = v_dereference b j.
Proof.
  unfold id_rel. intros H. unfold v_dereference.
  destruct b as [[]|]; cbn [bind]; rewrite ?H; reflexivity.
Qed.
Lemma post_loop_norm pv : faithful eq pv -> forall k acc, faithful eq (post_loop pv k acc).
Proof.
  intros Hp. induction k as [|k IH]; intros acc ts; [apply sim_err|].
  cbn [post_loop].
  destruct ts as [|t r]; [now apply sim_ok|].
  destruct t; cbn [map norm]; try stay.
  destruct (String.eqb s "[").
  { sm. apply IH. }
  destruct (String.eqb s "."); [|stay].
  generalize (p_ident_norm r);
    destruct (p_ident r) as [[i r1]|], (p_ident (map norm r)) as [[j r1']|]; intros H;
    cbn [sim] in H; [|easy|easy|stay].
  destruct H as [H ->]. rewrite (v_dereference_rel _ _ _ H). apply IH.
Qed.
Lemma prim_body_norm en pe pv pq : faithful eq pe -> faithful eq pv -> faithful eq pq ->
  faithful eq (prim_body en pe pv pq).
Proof.
  intros He Hv Hq ts. unfold prim_body. eapply sim_bind; [now apply prim_head_norm|].
  intros x y r <-. cbn beta iota. rewrite map_length. now apply post_loop_norm.
Qed.

(** * Queries *)

Lemma clause_ahead_norm ts : clause_ahead (map norm ts) = clause_ahead ts.
Proof.
  destruct ts as [|[] r]; cbn [map norm clause_ahead]; try reflexivity.
  destruct (String.eqb k "LIMIT"); [destruct r as [|[] r]; reflexivity|].
  destruct (String.eqb k "OFFSET"); [destruct r as [|[] r]; reflexivity|].
  destruct (String.eqb k "FETCH"); [destruct r as [|[] r]; reflexivity|].
  destruct (String.eqb k "WINDOW").
  { generalize (p_ident_norm r);
      destruct (p_ident r) as [[i r1]|], (p_ident (map norm r)) as [[j r1']|]; cbn [sim]; intros H;
      try easy.
    destruct H as [H ->]. rewrite eat_kw_norm. destruct (eat_kw "AS" r1); reflexivity. }
  destruct (String.eqb k "TABLESAMPLE"); [destruct r as [|[] r]; reflexivity|]. reflexivity.
Qed.
Lemma p_alias_norm : faithful (opt_rel id_rel) p_alias.
Proof.
  intros ts. unfold p_alias. rewrite eat_kw_norm.
  destruct (eat_kw "AS" ts) as [r|]; cbn [option_map]; [sm; cbn [opt_rel]; assumption|].
  rewrite clause_ahead_norm. destruct (clause_ahead ts); [now apply sim_ok|].
  idn ts. 
Qed.
Lemma p_columns_norm : faithful ids_rel p_columns.
Proof. intros ts. unfold p_columns. sm. assumption. Qed.
#[global] Hint Resolve p_alias_norm p_columns_norm : sp.
Lemma p_columns_opt_norm : faithful ids_rel p_columns_opt.
Proof.
  intros ts. unfold p_columns_opt. rewrite eat_sym_norm.
  destruct (eat_sym "(" ts); cbn [option_map]; [apply p_columns_norm | apply sim_ok; constructor].
Qed.
#[global] Hint Resolve p_columns_opt_norm : sp.
Lemma v_select_all_rel b l l' : ids_rel l l' -> v_select_all b (Some l) = v_select_all b (Some l').
Proof. intros H. unfold v_select_all. now rewrite (v_names_rel _ _ H). Qed.
Lemma v_select_single_rel b i j : opt_rel id_rel i j -> v_select_single b i = v_select_single b j.
Proof.
  intros H. unfold v_select_single. destruct i, j; cbn [opt_rel] in H; try easy.
  unfold id_rel in H. now rewrite H.
Qed.
Lemma p_select_item_norm pe pp : faithful eq pe -> faithful eq pp ->
  faithful eq (p_select_item pe pp).
Proof.
  intros He Hp ts. unfold p_select_item. cbn zeta. rewrite eat_sym_norm.
  destruct (eat_sym "*" ts) as [r|]; cbn [option_map]; [now apply sim_ok|].
  sm1. subst. rewrite eat_sym_norm. destruct (eat_sym "." r) as [r1|]; cbn [option_map].
  - sm; [now apply v_select_all_rel | reflexivity].
  - sm. now apply v_select_single_rel.
Qed.
Lemma continues_norm ts : continues (map norm ts) = continues ts.
Proof.
  destruct ts as [|[] r]; cbn [map norm continues]; try reflexivity.
  generalize (at_zone_norm (TKw k txt :: r)). cbn [map norm]. now intros ->.
Qed.
Lemma p_exprs_opt_norm pe : faithful eq pe -> faithful eq (p_exprs_opt pe).
Proof.
  intros He ts. unfold p_exprs_opt. rewrite eat_sym_norm.
  destruct (eat_sym ")" ts); cbn [option_map]; [now apply sim_ok | now apply sep_norm].
Qed.
#[global] Hint Resolve p_select_item_norm p_exprs_opt_norm : sp.
Lemma p_gset_norm pe : faithful eq pe -> faithful eq (p_gset pe).
Proof.
  intros He ts. unfold p_gset. cbn zeta. rewrite eat_sym_norm.
  destruct (eat_sym "(" ts) as [r|]; cbn [option_map]; [|sm; reflexivity].
  apply sim_orelse; [|sm; reflexivity].
  sm. rewrite continues_norm. destruct (continues l); [apply sim_err | now apply sim_ok].
Qed.
Lemma p_parenthesised_norm {A} (R : A -> A -> Prop) p : faithful R p ->
  faithful R (p_parenthesised p).
Proof. intros Hp ts. unfold p_parenthesised. sm. assumption. Qed.
#[global] Hint Resolve p_gset_norm p_parenthesised_norm : sp.
Lemma p_group_norm pe : faithful eq pe -> faithful eq (p_group pe).
Proof.
  intros He ts. unfold p_group. cbn zeta.
  destruct ts as [|t r].
  { eapply sim_bind; [exact (p_gset_norm pe He [])|]. intros; sm; reflexivity. }
  assert (G : sim eq (let* (l, r0) := p_gset pe (t :: r) in Ok (v_group (@GSet node) l, r0))
                (let* (l, r0) := p_gset pe (norm t :: map norm r) in
                 Ok (v_group (@GSet node) l, r0))).
  { eapply sim_bind; [exact (p_gset_norm pe He (t :: r))|]. intros; sm; reflexivity. }
  destruct t; cbn [map norm]; try exact G.
  destruct (String.eqb k "ROLLUP"). { sm; reflexivity. }
  destruct (String.eqb k "CUBE"). { sm; reflexivity. }
  destruct (String.eqb k "GROUPING"); [|exact G].
  rewrite eat_kw_norm. destruct (eat_kw "SETS" r); cbn [option_map]; [|exact G].
  sm; reflexivity.
Qed.
#[global] Hint Resolve p_group_norm : sp.
Lemma p_group_quant_norm ts : p_group_quant (map norm ts) = over_rest (p_group_quant ts).
Proof.
  pose proof (p_quant_norm ts) as Q. destruct ts as [|[] [|[] r]]; try exact Q.
  cbn [map norm p_group_quant] in *. destruct (String.eqb k "ALL") eqn:E; cbn [andb]; [|exact Q].
  destruct (mem k0 ["ROLLUP"; "CUBE"]); [|exact Q].
  apply String.eqb_eq in E. subst k. now rewrite (kw_text_name "ALL") by reflexivity.
Qed.
Lemma p_groupby_norm pe : faithful eq pe -> faithful eq (p_groupby pe).
Proof.
  intros He ts. unfold p_groupby. rewrite p_group_quant_norm. destruct (p_group_quant ts) as [q r].
  unfold over_rest. cbn [fst snd]. sm. reflexivity.
Qed.
Lemma p_windef_norm pe : faithful eq pe -> faithful eq (p_windef pe).
Proof.
  intros He ts. unfold p_windef. sm1. sm. unfold id_rel in H. now rewrite H.
Qed.
Lemma p_clause_norm {A} k (p : list token -> pres A) : faithful eq p -> faithful eq (p_clause k p).
Proof. intros Hp ts. unfold p_clause. sm; reflexivity. Qed.
Lemma after_by_norm {A} (p : list token -> pres A) : faithful eq p -> faithful eq (after_by p).
Proof. intros Hp ts. unfold after_by. sm. apply Hp. Qed.
#[global] Hint Resolve p_groupby_norm p_windef_norm p_clause_norm after_by_norm : sp.
Lemma p_from_norm prel : faithful eq prel -> forall k, faithful eq (p_from prel k).
Proof.
  intros He. induction k as [|k IH]; intros ts; [apply sim_err|].
  cbn [p_from]. sm; [|reflexivity]. destruct y0 as [l1 n]. sm. reflexivity.
Qed.
Lemma p_from_len_norm prel : faithful eq prel ->
  faithful eq (fun ts => p_from prel (S (length ts)) ts).
Proof. intros H ts. cbn beta. rewrite map_length. now apply p_from_norm. Qed.
Lemma p_select_norm pe pp prel : faithful eq pe -> faithful eq pp -> faithful eq prel ->
  faithful eq (p_select pe pp prel).
Proof.
  intros He Hp Hr ts. unfold p_select. rewrite p_quant_norm. destruct (p_quant ts) as [q r].
  unfold over_rest. cbn [fst snd]. sm1. subst.
  eapply sim_bind; [apply p_clause_norm, p_from_len_norm, Hr|].
  intros from from' r2 <-. cbn beta iota. do 3 (sm1; subst).
  apply (sim_bind eq).
  - match goal with |- context [clause_ahead (map norm ?r)] =>
      rewrite (clause_ahead_norm r); destruct (clause_ahead r) end;
      [eauto with sp | now apply sim_ok].
  - intros ws ws' r6 <-. cbn beta iota. now apply sim_ok.
Qed.
Lemma v_table_rel l l' : ids_rel l l' -> v_table l = v_table l'.
Proof. intros H. unfold v_table. now rewrite (v_names_rel _ _ H). Qed.
#[global] Hint Resolve p_select_norm : sp.
Lemma p_query_primary_norm pe pp prel pqn : faithful eq pe -> faithful eq pp ->
  faithful eq prel -> faithful eq pqn -> faithful eq (p_query_primary pe pp prel pqn).
Proof.
  intros He Hp Hr Hq ts. unfold p_query_primary.
  destruct ts as [|[] r]; cbn [map norm]; try apply sim_err.
  - destruct (String.eqb k "SELECT"); [now apply p_select_norm|].
    destruct (String.eqb k "TABLE").
    { sm. now rewrite (v_table_rel _ _ H). }
    destruct (String.eqb k "VALUES"); [|apply sim_err]. sm. reflexivity.
  - destruct (String.eqb s "("); [|apply sim_err]. sm. reflexivity.
Qed.
Lemma p_set_quant_norm ts : p_set_quant (map norm ts) = over_rest (p_set_quant ts).
Proof.
  destruct ts as [|[] r]; cbn [map norm p_set_quant]; try reflexivity.
  unfold mem. cbn [existsb].
  destruct (String.eqb k "DISTINCT") eqn:E; cbn [orb].
  { apply String.eqb_eq in E. subst k. now rewrite kw_text_distinct. }
  destruct (String.eqb k "ALL") eqn:E2; cbn [orb]; [|reflexivity].
  apply String.eqb_eq in E2. subst k. now rewrite (kw_text_name "ALL") by reflexivity.
Qed.
Lemma term_loop_norm pt : (forall l, faithful eq (pt l)) ->
  forall k lvl acc, faithful eq (term_loop pt k lvl acc).
Proof.
  intros Hp. induction k as [|k IH]; intros lvl acc ts; [apply sim_err|].
  cbn [term_loop].
  destruct ts as [|t r]; [now apply sim_ok|].
  destruct t; cbn [map norm]; try stay.
  destruct (set_kw k0) as [[p op]|]; [|stay].
  destruct (Nat.leb lvl p); [|stay].
  rewrite p_set_quant_norm. destruct (p_set_quant r) as [q r1]. unfold over_rest. cbn [fst snd].
  sm. apply IH.
Qed.
Lemma term_body_norm pt pprim lvl : (forall l, faithful eq (pt l)) -> faithful eq pprim ->
  faithful eq (term_body pt pprim lvl).
Proof.
  intros Ht Hp ts. unfold term_body. sm1. subst. rewrite map_length. now apply term_loop_norm.
Qed.
Lemma p_row_count_norm : faithful eq p_row_count.
Proof.
  intros [|[] r]; cbn [map norm p_row_count]; try apply sim_err; [now apply sim_ok|].
  destruct (String.eqb s "?"); [now apply sim_ok | apply sim_err].
Qed.
Lemma eat_rows_norm ts : eat_rows (map norm ts) = option_map (map norm) (eat_rows ts).
Proof.
  unfold eat_rows. rewrite !eat_kw_norm. destruct (eat_kw "ROW" ts); reflexivity.
Qed.
#[global] Hint Resolve p_row_count_norm : sp.
Lemma p_offset_norm : faithful eq p_offset.
Proof.
  intros ts. unfold p_offset. rewrite eat_kw_norm.
  destruct (eat_kw "OFFSET" ts) as [r|]; cbn [option_map]; [|now apply sim_ok].
  eapply sim_bind; [apply p_row_count_norm|]. intros n n' r1 <-. cbn beta iota.
  rewrite eat_rows_norm. destruct (eat_rows r1); cbn [option_map]; now apply sim_ok.
Qed.
Lemma p_limit_norm : faithful eq p_limit.
Proof.
  intros ts. unfold p_limit. rewrite eat_kw_norm.
  destruct (eat_kw "LIMIT" ts) as [r|]; cbn [option_map].
  - destruct r as [|t r]; [apply sim_err|].
    destruct t; cbn [map norm];
      try match goal with |- sim _ (bind (p_row_count ?ts) _) _ =>
            eapply sim_bind; [exact (p_row_count_norm ts) | intros; subst; now apply sim_ok] end.
    destruct (String.eqb k "ALL") eqn:E; [|apply sim_err].
    apply String.eqb_eq in E. subst k. rewrite (kw_text_name "ALL") by reflexivity.
    now apply sim_ok.
  - rewrite eat_kw_norm. destruct (eat_kw "FETCH" ts) as [r|]; cbn [option_map]; [|now apply sim_ok].
    destruct r as [|[] r]; cbn [map norm bind]; try apply sim_err.
    destruct (mem k _); cbn [bind]; [|apply sim_err]. cbn zeta.
    assert (E : match p_row_count (map norm r) with Ok (_, r2) => r2 | Err _ => map norm r end
                = map norm match p_row_count r with Ok (_, r2) => r2 | Err _ => r end).
    { generalize (p_row_count_norm r).
      destruct (p_row_count r) as [[]|], (p_row_count (map norm r)) as [[]|]; cbn [sim]; easy. }
    rewrite E. rewrite eat_rows_norm. destruct (eat_rows _); cbn [option_map need bind];
      [|apply sim_err]. sm; reflexivity.
Qed.
#[global] Hint Resolve p_offset_norm p_limit_norm : sp.
Lemma qnw_body_norm pt pe : faithful eq pt -> faithful eq pe -> faithful eq (qnw_body pt pe).
Proof. intros Ht He ts. unfold qnw_body. sm. reflexivity. Qed.
Lemma p_named_norm pq : faithful eq pq -> faithful eq (p_named pq).
Proof.
  intros Hq ts. unfold p_named. do 2 sm1. sm. unfold v_named. unfold id_rel in H.
  rewrite H. now rewrite (v_names_rel _ _ H0).
Qed.
#[global] Hint Resolve p_named_norm : sp.
Lemma query_body_norm pqn pq : faithful eq pqn -> faithful eq pq -> faithful eq (query_body pqn pq).
Proof.
  intros Hn Hq ts. unfold query_body. rewrite eat_kw_norm.
  destruct (eat_kw "WITH" ts) as [r|]; cbn [option_map]; [|sm; reflexivity].
  rewrite eat_kw_norm. destruct (eat_kw "RECURSIVE" r); cbn [option_map]; cbv beta iota zeta;
    sm; reflexivity.
Qed.

(** * Relations *)

Lemma p_relation_primary_norm pe pq prel : faithful eq pe -> faithful eq pq ->
  faithful eq prel -> faithful eq (p_relation_primary pe pq prel).
Proof.
  intros He Hq Hr ts. unfold p_relation_primary. cbn zeta.
  assert (G : sim eq (let* (l, r) := p_qname ts in Ok (v_table l, r))
                (let* (l, r) := p_qname (map norm ts) in Ok (v_table l, r))).
  { sm. now apply v_table_rel. }
  destruct ts as [|t r]; [exact G|]. cbn [map] in *.
  destruct t; cbn [norm] in *; try exact G.
  - destruct (String.eqb k "UNNEST"). { sm; reflexivity. }
    rewrite eat_sym_norm.
    destruct (String.eqb k "LATERAL"), (String.eqb k "TABLE"), (eat_sym "(" r);
      cbn [option_map andb need bind]; try exact G; try apply sim_err; try (now apply p_shapes_norm); sm; reflexivity.
  - destruct (String.eqb s "("); [|apply sim_err]. sm; reflexivity.
Qed.
#[global] Hint Resolve p_relation_primary_norm : sp.
Lemma p_aliased_norm pe pq prel : faithful eq pe -> faithful eq pq ->
  faithful eq prel -> faithful eq (p_aliased pe pq prel).
Proof.
  intros He Hq Hr ts. unfold p_aliased. do 2 sm1. subst.
  destruct x0 as [i|], y0 as [j|]; cbn [opt_rel] in H0; try easy.
  sm. unfold v_aliased_rel. unfold id_rel in H0. rewrite H0. now rewrite (v_names_rel _ _ H).
Qed.
#[global] Hint Resolve p_aliased_norm : sp.
Lemma p_sampled_norm pe pq prel : faithful eq pe -> faithful eq pq ->
  faithful eq prel -> faithful eq (p_sampled pe pq prel).
Proof.
  intros He Hq Hr ts. unfold p_sampled. sm1. subst. rewrite clause_ahead_norm.
  destruct (clause_ahead r) eqn:C; [|now apply sim_ok].
  rewrite eat_kw_norm. destruct (eat_kw "TABLESAMPLE" r) as [r1|] eqn:E; cbn [option_map];
    [|now apply sim_ok].
  destruct r1 as [|[] r1]; cbn [map norm]; try now apply sim_ok.
  rewrite kw_text_name; [sm; reflexivity|].
  destruct r as [|[] r]; cbn [eat_kw] in E; try discriminate.
  destruct (String.eqb k0 "TABLESAMPLE") eqn:F; [|discriminate].
  apply String.eqb_eq in F. injection E as ->. subst k0. cbn [clause_ahead] in C.
  cbn [String.eqb Ascii.eqb Bool.eqb] in C. unfold mem in C. cbn [existsb] in C.
  destruct (String.eqb k "BERNOULLI") eqn:B; [apply String.eqb_eq in B; subst k; reflexivity|].
  destruct (String.eqb k "SYSTEM") eqn:B2; [apply String.eqb_eq in B2; subst k; reflexivity|].
  discriminate.
Qed.
#[global] Hint Resolve p_sampled_norm : sp.
Lemma eat_outer_norm ts : eat_outer (map norm ts) = map norm (eat_outer ts).
Proof. unfold eat_outer. rewrite eat_kw_norm. destruct (eat_kw "OUTER" ts); reflexivity. Qed.
Lemma p_join_type_norm ts : p_join_type (map norm ts) = over_rest (p_join_type ts).
Proof.
  destruct ts as [|[] r]; cbn [map norm p_join_type]; try reflexivity.
  rewrite eat_outer_norm.
  destruct (String.eqb k "INNER"), (String.eqb k "LEFT"), (String.eqb k "RIGHT"),
    (String.eqb k "FULL"); reflexivity.
Qed.
Lemma p_criteria_norm pe : faithful eq pe -> faithful eq (p_criteria pe).
Proof.
  intros He ts. unfold p_criteria. sm; [reflexivity|]. now rewrite (v_names_rel _ _ H).
Qed.
#[global] Hint Resolve p_criteria_norm : sp.
Lemma join_ahead_norm ts : join_ahead (map norm ts) = join_ahead ts.
Proof. destruct ts as [|[] r]; reflexivity. Qed.
Lemma rel_loop_norm pe ps prel : faithful eq pe -> faithful eq ps -> faithful eq prel ->
  forall k acc, faithful eq (rel_loop pe ps prel k acc).
Proof.
  intros He Hs Hr. induction k as [|k IH]; intros acc ts; [apply sim_err|].
  cbn [rel_loop]. rewrite join_ahead_norm. destruct (join_ahead ts); [|now apply sim_ok].
  rewrite eat_kw_norm. destruct (eat_kw "CROSS" ts) as [r|]; cbn [option_map].
  { sm. apply IH. }
  rewrite eat_kw_norm. destruct (eat_kw "NATURAL" ts) as [r|]; cbn [option_map];
    rewrite p_join_type_norm; match goal with |- context [p_join_type ?r] =>
      destruct (p_join_type r) as [jt r1] end; unfold over_rest; cbn [fst snd]; sm; apply IH.
Qed.
Lemma relation_body_norm pe pq prel : faithful eq pe -> faithful eq pq ->
  faithful eq prel -> faithful eq (relation_body pe pq prel).
Proof.
  intros He Hq Hr ts. unfold relation_body. sm1. subst. rewrite map_length.
  apply rel_loop_norm; auto. now apply p_sampled_norm.
Qed.

(** * The grammar *)

Lemma grammar_norm en n :
  (forall l, faithful eq (p_bool en n l)) /\ (forall l, faithful eq (p_value en n l))
  /\ faithful eq (p_primary en n) /\ faithful eq (p_query en n)
  /\ faithful eq (p_query_no_with en n) /\ (forall l, faithful eq (p_term en n l))
  /\ faithful eq (p_relation en n).
Proof.
  induction n as [|n (Hb & Hv & Hp & Hq & Hn & Ht & Hr)].
  { split; [|split; [|split; [|split; [|split; [|split]]]]]; intros; apply sim_err. }
  split; [|split; [|split; [|split; [|split; [|split]]]]].
  - intros l ts. change (sim eq
      (bool_body (p_bool en n) (p_value en n 0) (p_query en n) l ts)
      (bool_body (p_bool en n) (p_value en n 0) (p_query en n) l (map norm ts))).
    apply bool_body_norm; auto.
  - intros l ts. change (sim eq
      (value_body (p_value en n) (p_primary en n) l ts)
      (value_body (p_value en n) (p_primary en n) l (map norm ts))).
    apply value_body_norm; auto.
  - intros ts. change (sim eq
      (prim_body en (p_bool en n 0) (p_value en n 0) (p_query en n) ts)
      (prim_body en (p_bool en n 0) (p_value en n 0) (p_query en n) (map norm ts))).
    apply prim_body_norm; auto.
  - intros ts. change (sim eq
      (query_body (p_query_no_with en n) (p_query en n) ts)
      (query_body (p_query_no_with en n) (p_query en n) (map norm ts))).
    apply query_body_norm; auto.
  - intros ts. change (sim eq
      (qnw_body (p_term en n 0) (p_bool en n 0) ts)
      (qnw_body (p_term en n 0) (p_bool en n 0) (map norm ts))).
    apply qnw_body_norm; auto.
  - intros l ts. change (sim eq
      (term_body (p_term en n)
             (p_query_primary (p_bool en n 0) (p_primary en n) (p_relation en n)
                              (p_query_no_with en n)) l ts)
      (term_body (p_term en n)
             (p_query_primary (p_bool en n 0) (p_primary en n) (p_relation en n)
                              (p_query_no_with en n)) l (map norm ts))).
    apply term_body_norm; auto. intros us. apply p_query_primary_norm; auto.
  - intros ts. change (sim eq
      (relation_body (p_bool en n 0) (p_query en n) (p_relation en n) ts)
      (relation_body (p_bool en n 0) (p_query en n) (p_relation en n) (map norm ts))).
    apply relation_body_norm; auto.
Qed.

Lemma parse_fuel_norm ts : parse_fuel (map norm ts) = parse_fuel ts.
Proof. unfold parse_fuel. now rewrite map_length. Qed.
Lemma query_norm en ts : query_of_tokens en (map norm ts) = query_of_tokens en ts.
Proof.
  unfold query_of_tokens. rewrite parse_fuel_norm.
  destruct (grammar_norm en (parse_fuel ts)) as (_ & _ & _ & Hq & _).
  generalize (Hq ts).
  destruct (p_query en (parse_fuel ts) ts) as [[]|], (p_query en (parse_fuel ts) (map norm ts)) as [[]|];
    cbn [sim bind]; intros H; try (subst; easy).
Qed.
Lemma expression_norm en ts : expression_of_tokens en (map norm ts) = expression_of_tokens en ts.
Proof.
  unfold expression_of_tokens. rewrite parse_fuel_norm.
  destruct (grammar_norm en (parse_fuel ts)) as (Hb & _).
  generalize (Hb 0 ts).
  destruct (p_bool en (parse_fuel ts) 0 ts) as [[v r]|],
    (p_bool en (parse_fuel ts) 0 (map norm ts)) as [[v' r']|];
    cbn [sim bind]; intros H; try (subst; easy).
  destruct H as [<- ->]. now destruct r.
Qed.
Lemma type_norm ts :
  (let* t := p_standalone_type (map norm ts) in visit_type t)
  = (let* t := p_standalone_type ts in visit_type t).
Proof.
  unfold p_standalone_type, type_fuel. rewrite map_length.
  set (n := 8 * length ts + 8). generalize (p_type_norm n ts).
  destruct (p_type n ts) as [[v r]|], (p_type n (map norm ts)) as [[v' r']|];
    cbn [sim bind]; intros H; try (subst; easy).
  destruct H as [H ->]. destruct r; cbn [map bind]; [now rewrite H | reflexivity].
Qed.
