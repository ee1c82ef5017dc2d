(** Everything that is read looks as ReadShape.v says (for C58): the parsers. *)
From Coq Require Import String Ascii List Bool Arith NArith ZArith Lia.
From Verif Require Import PyStr StrFacts Types Inference Lexer LexFacts TypeParser TypeFacts TypeRoundTrip TypeObjects
  Functions Ast Sql Walk Parser Tokens TextFacts NodeFacts Good PropertiesLambda PropertiesResolve
  ReadTokens ReadTypes ParseForms ReadShape ReadVisit.
Import ListNotations.
Open Scope nat_scope.
Open Scope string_scope.
Open Scope list_scope.

Lemma gives_assoc {Lx : lexis} {A B C} (P : C -> Prop) (x : result A) (f : A -> pres B) (g : B * list token -> pres C) :
  gives P (bind x (fun a => bind (f a) g)) -> gives P (bind (bind x f) g).
Proof. destruct x; trivial. Qed.
Ltac rd1 :=
  first
    [ match goal with
      | |- gives _ (bind (bind _ _) _) => apply gives_assoc
      | |- gives _ (bind (Ok _) _) => cbn [bind]; cbn beta iota
      | |- gives _ (bind (Err _) _) => cbn [bind]; apply gives_err
      | |- gives _ (bind (if ?b then _ else _) _) => destruct b
      | |- gives _ (bind (match eat_kw _ _ with _ => _ end) _) => eat; cbn beta iota
      | |- gives _ (bind (match eat_sym _ _ with _ => _ end) _) => eat; cbn beta iota
      | |- gives _ (match (match eat_kw _ _ with _ => _ end) with _ => _ end) => eat; cbn beta iota
      | |- gives _ (match (match eat_sym _ _ with _ => _ end) with _ => _ end) => eat; cbn beta iota
      end
    | gv1 ].
Ltac rd := repeat rd1.

Notation vals P p := (forall ts, Forall tok_ok ts -> gives (okP P) (p ts)).
Notation terms en p := (forall ts, Forall tok_ok ts -> gives (okP (have en is_term)) (p ts)).

(** * Lists *)
Lemma list_one {A} (P : A -> Prop) x : okP P x -> okP (some_of P) (let* a := x in Ok [a]).
Proof. intro X. bnd. apply okP_ok. split; [discriminate|]. constructor; [assumption|constructor]. Qed.
Lemma list_more {A} (P : A -> Prop) x l :
  okP P x -> okP (some_of P) l -> okP (some_of P) (let* a := x in let* b := l in Ok (a :: b)).
Proof.
  intros X L. bnd. bnd. apply okP_ok. split; [discriminate|]. constructor; [assumption|]. now destruct H0.
Qed.
Lemma p_sep_gives {Lx : lexis} {A} (P : A -> Prop) p : vals P p -> forall k ts, Forall tok_ok ts -> gives (okP (some_of P)) (p_sep p k ts).
Proof.
  intros H. induction k as [|k IH]; intros ts F; [apply gives_err|]. cbn [p_sep].
  rd; [apply list_more|apply list_one]; assumption.
Qed.
Lemma sep_gives {Lx : lexis} {A} (P : A -> Prop) p : vals P p -> vals (some_of P) (sep p).
Proof. intros H ts F. unfold sep. now apply p_sep_gives. Qed.
#[global] Hint Resolve sep_gives : gv.
Lemma p_name_gives {Lx : lexis} : vals id_ok p_name.
Proof. intros ts F. unfold p_name. rd. now apply okP_ok. Qed.
#[global] Hint Resolve p_name_gives : gv.
Lemma p_idents_gives {Lx : lexis} : reader (some_of id_ok) p_idents.
Proof.
  intros ts F. unfold p_idents. rd. destruct a as [l|]; [|apply gives_err]. cbn [bind]. rd. now apply H.
Qed.
#[global] Hint Resolve p_idents_gives : gv.
Lemma p_qname_tail_ok {Lx : lexis} k : forall ts l r, Forall tok_ok ts -> p_qname_tail k ts = (l, r) -> Forall id_ok l /\ Forall tok_ok r.
Proof.
  induction k as [|k IH]; intros ts l r F H; cbn [p_qname_tail] in H; [injection H as <- <-; auto|].
  destruct (eat_sym "." ts) as [r0|] eqn:E; [|injection H as <- <-; auto]. apply eat_sym_ok in E; [|exact F].
  destruct (p_ident r0) as [[i r1]|] eqn:E1; [|injection H as <- <-; auto]. apply p_ident_ok in E1 as [I F1]; [|exact E].
  destruct (p_qname_tail k r1) as [l2 r2] eqn:E2. injection H as <- <-. apply IH in E2 as [L R]; [|exact F1].
  split; [now constructor|exact R].
Qed.
Lemma p_qname_gives {Lx : lexis} : reader (Forall id_ok) p_qname.
Proof.
  intros ts F. unfold p_qname. rd. destruct (p_qname_tail (S (length r)) r) as [l r1] eqn:E.
  apply p_qname_tail_ok in E as [L R]; [|assumption]. apply gives_ok; [now constructor|exact R].
Qed.
#[global] Hint Resolve p_qname_gives : gv.
Lemma all_of {A} (P : A -> Prop) x : okP (some_of P) x -> okP (Forall P) x.
Proof. intros H l E. now apply H. Qed.

(** * Operators *)
Ltac tail F := let t := fresh "t" in let Ht := fresh "Ht" in destruct F as [|t ? Ht F]; [|destruct t].

Lemma v_vop_ok {Lx : lexis} en op a b : okP (have en is_term) a -> okP (have en is_term) b -> okP (have en is_term) (v_vop op a b).
Proof. destruct op; [apply v_arith_ok|apply v_concat_ok]. Qed.
Lemma interval_field_gives {Lx : lexis} : reader (fun t => In (upper t) interval_fields) p_interval_field.
Proof.
  intros ts F. destruct F as [|t ts Ht F]; [apply gives_err|]. destruct t; cbn [p_interval_field]; try apply gives_err.
  destruct (mem k interval_fields) eqn:M; [|apply gives_err]. apply gives_ok; [|exact F].
  destruct Ht as [_ ->]. now apply mem_in.
Qed.
Lemma p_interval_gives {Lx : lexis} en : terms en p_interval.
Proof.
  intros ts F. unfold p_interval.
  match goal with |- gives _ (let '(_, _) := ?x in _) => destruct x as [m r] eqn:X end.
  assert (R : Forall tok_ok r).
  { destruct (eat_sym "-" ts) eqn:E1; [injection X as <- <-; now apply (eat_sym_ok _ _ _ F) in E1|].
    destruct (eat_sym "+" ts) eqn:E2; injection X as <- <-; [now apply (eat_sym_ok _ _ _ F) in E2|exact F]. }
  destruct (p_string r) as [[s r1]|] eqn:S; [|apply gives_err]. apply p_string_ok in S as [S R1]; [|exact R].
  eapply gives_bind; [now apply interval_field_gives|]. intros f r2 Hf R2. cbn beta iota.
  eat; [|apply gives_ok; [now apply v_interval_ok|assumption]].
  eapply gives_bind; [now apply interval_field_gives|]. intros t r4 T R4. cbn beta iota.
  apply gives_ok; [now apply v_interval_ok|assumption].
Qed.
#[global] Hint Resolve p_interval_gives : gv.
Lemma p_zone_value_gives {Lx : lexis} en : terms en p_zone_value.
Proof.
  intros ts F. unfold p_zone_value. eat; [now apply p_interval_gives|].
  destruct (p_string ts) as [[s r]|] eqn:S; [|apply gives_err]. apply p_string_ok in S as [S R]; [|exact F].
  apply gives_ok; [|exact R]. bnd. apply okP_err.
Qed.
Lemma skipn_ok {Lx : lexis} n ts : Forall tok_ok ts -> Forall tok_ok (skipn n ts).
Proof. revert ts. induction n as [|n IH]; intros ts F; [exact F|]. destruct F; [constructor|now apply IH]. Qed.
Lemma value_loop_gives {Lx : lexis} en pv : (forall l, terms en (pv l)) ->
  forall k lvl acc, okP (have en is_term) acc -> terms en (value_loop pv k lvl acc).
Proof.
  intros H. induction k as [|k IH]; intros lvl acc A ts F; [apply gives_err|]. cbn [value_loop].
  assert (X : gives (okP (have en is_term)) 
    (if at_zone ts then
       let* (z, r) := p_zone_value (skipn 3 ts) in value_loop pv k lvl (let* _ := acc in z) r
     else Ok (acc, ts))).
  { destruct (at_zone ts); [|apply gives_ok; assumption].
    eapply gives_bind; [apply p_zone_value_gives; now apply skipn_ok|]. intros z r Z R. cbn beta iota.
    apply IH; [|exact R]. bnd. exact Z. }
  destruct F as [|t ts Ht F]; [exact X|]. destruct t; try exact X.
  assert (F' : Forall tok_ok (TSym s :: ts)) by now constructor.
  destruct (vop_sym s) as [[p op]|]; [|rd; assumption]. destruct (Nat.leb lvl p); [|rd; assumption].
  specialize (H (S p)). rd. apply IH; [now apply v_vop_ok|assumption].
Qed.
Lemma value_body_gives {Lx : lexis} en pv pp lvl : (forall l, terms en (pv l)) -> terms en pp -> terms en (value_body pv pp lvl).
Proof.
  intros H P ts F. unfold value_body. eapply gives_bind with (Q := okP (have en is_term)).
  - assert (U : forall op r, Forall tok_ok r -> gives (okP (have en is_term)) (let* (a, r1) := pv 4 r in Ok (v_unary op a, r1))).
    { intros op r R. pose proof (H 4) as H4. rd. now apply v_unary_ok. }
    pose proof (P ts F) as X. destruct F as [|t ts Ht F]; [exact X|]. destruct t; try exact X.
    destruct (String.eqb s "-").
    + destruct ts as [|t ts]; [apply U; constructor|]. destruct (is_number t); [exact X|now apply U].
    + destruct (String.eqb s "+"); [now apply U|exact X].
  - intros a r A R. cbn beta iota. now apply value_loop_gives.
Qed.
Lemma bool_loop_gives {Lx : lexis} en pb : (forall l, terms en (pb l)) ->
  forall k lvl acc, okP (have en is_term) acc -> terms en (bool_loop pb k lvl acc).
Proof.
  intros H. induction k as [|k IH]; intros lvl acc A ts F; [apply gives_err|]. cbn [bool_loop].
  destruct F as [|t ts Ht F]; [apply gives_ok; [assumption|constructor]|].
  assert (F' : Forall tok_ok (t :: ts)) by now constructor. destruct t; try (rd; assumption).
  pose proof (H 2) as H2. pose proof (H 3) as H3.
  destruct (String.eqb k0 "AND" && Nat.leb lvl 2)%bool; [rd; apply IH; [now apply v_logic_ok|assumption]|].
  destruct (String.eqb k0 "OR" && Nat.leb lvl 1)%bool; [rd; apply IH; [now apply v_logic_ok|assumption]|].
  rd; assumption.
Qed.

Notation queries en p := (forall ts, Forall tok_ok ts -> gives (okP (have en is_select)) (p ts)).
Lemma pred_tail_gives {Lx : lexis} en pe pv pq neg left k : terms en pe -> terms en pv -> queries en pq ->
  okP (have en is_term) left -> terms en (pred_tail pe pv pq neg left k).
Proof.
  intros E V Q L ts F. unfold pred_tail.
  destruct (String.eqb k "BETWEEN").
  { rd. apply v_negate_ok. bnd. bnd. bnd. hv. apply have_mk; cbn [well_here kids scope]; fa. reflexivity. }
  destruct (String.eqb k "IN").
  { rd; apply v_negate_ok; bnd; bnd; hv; apply have_mk; cbn [well_here kids scope]; fa; reflexivity. }
  destruct (String.eqb k "LIKE"); [|apply gives_err].
  rd; apply v_negate_ok.
  - bnd. bnd. match goal with H : have en is_term ?e |- context [opt_node ?e] => apply opt_node_is in H as [O1 O2] end.
    bnd. hv. apply have_mk; cbn [well_here kids scope]; fa. reflexivity.
  - bnd. bnd. hv. apply have_mk; cbn [well_here kids scope opt_is opt_kids]; fa; reflexivity.
Qed.
Lemma predicate_gives {Lx : lexis} en pe pv pq left : terms en pe -> terms en pv -> queries en pq ->
  okP (have en is_term) left -> terms en (predicate pe pv pq left).
Proof.
  intros E V Q L ts F. unfold predicate.
  destruct F as [|t ts Ht F]; [apply gives_ok; [assumption|constructor]|].
  assert (F' : Forall tok_ok (t :: ts)) by now constructor. destruct t; try (rd; assumption).
  - destruct (String.eqb k "NOT").
    { destruct F as [|t ts Ht2 F]; [apply gives_err|]. destruct t; try apply gives_err. now apply pred_tail_gives. }
    destruct (String.eqb k "IS").
    { rd; apply v_negate_ok; bnd; try bnd; hv; apply have_mk; cbn [well_here kids scope]; fa; reflexivity. }
    destruct (is_tail_kw k); [now apply pred_tail_gives|rd; assumption].
  - destruct (cmp_sym s); [|rd; assumption]. apply gives_orelse.
    + rd. now apply v_compare_ok.
    + destruct F as [|t ts Ht2 F]; [apply gives_err|]. destruct t; try apply gives_err. rd.
      bnd. apply okP_err.
Qed.
Lemma bool_body_gives {Lx : lexis} en pb pv pq lvl : (forall l, terms en (pb l)) -> terms en pv -> queries en pq ->
  terms en (bool_body pb pv pq lvl).
Proof.
  intros B V Q ts F. unfold bool_body. eapply gives_bind with (Q := okP (have en is_term)).
  - pose proof (B 3) as B3. rd; [now apply v_unary_ok|]. apply predicate_gives; auto.
  - intros a r A R. cbn beta iota. now apply bool_loop_gives.
Qed.

(** * Parts of calls *)
Lemma p_sort_gives {Lx : lexis} en pe : terms en pe -> vals (ord_ok en) (p_sort pe).
Proof.
  intros E ts F. unfold p_sort. rd; unfold v_sort; bnd; apply okP_ok; assumption.
Qed.
#[global] Hint Resolve p_sort_gives : gv.
Lemma p_orderby_gives {Lx : lexis} en pe : terms en pe -> reader (opt_all' (okP (Forall (ord_ok en)))) (p_orderby pe).
Proof. intros E ts F. unfold p_orderby. rd; [now apply all_of|exact Logic.I]. Qed.
#[global] Hint Resolve p_orderby_gives : gv.
Lemma p_direction_gives {Lx : lexis} : reader (fun _ => True) p_direction.
Proof. intros ts F. unfold p_direction. rd; exact Logic.I. Qed.
#[global] Hint Resolve p_direction_gives : gv.
Lemma p_bound_gives {Lx : lexis} en pe : terms en pe -> vals (bnd_ok en) (p_bound pe).
Proof.
  intros E ts F. unfold p_bound. rd; try (apply okP_ok; constructor).
  bnd. destruct (wrapped _ _); [|apply okP_err]. cbn [bind]. apply okP_ok. constructor; [assumption|constructor].
Qed.
#[global] Hint Resolve p_bound_gives : gv.
Lemma p_frame_gives {Lx : lexis} en pe f : terms en pe -> vals (win_ok en) (p_frame pe f).
Proof. intros E ts F. unfold p_frame. rd; apply v_frame_ok; cbn [opt_all']; trivial. Qed.
#[global] Hint Resolve p_frame_gives : gv.
Lemma p_winspec_gives {Lx : lexis} en pe : terms en pe -> vals (win_ok en) (p_winspec pe).
Proof.
  intros E ts F. unfold p_winspec.
  eapply gives_bind with (Q := opt_all' id_ok); [rd; [assumption|exact Logic.I]|]. intros n r N R. cbn beta iota.
  eapply gives_bind with (Q := opt_all' (okP (Forall (have en is_term)))); [rd; [now apply all_of|exact Logic.I]|].
  intros ps r1 P R1. cbn beta iota. rd1.
  destruct (frame_ahead r0) as [[f r3]|] eqn:A.
  - assert (R3 : Forall tok_ok r3).
    { destruct r0 as [|[] r4]; try discriminate. cbn [frame_ahead] in A. destruct (frame_kw k); [|discriminate].
      injection A as <- <-. now inversion H0. }
    rd. now apply v_winspec_ok.
  - rd. now apply v_winspec_ok.
Qed.
#[global] Hint Resolve p_winspec_gives : gv.
Lemma p_over_gives {Lx : lexis} en pe : terms en pe -> reader (opt_all' (okP (win_ok en))) (p_over pe).
Proof.
  intros E ts F. unfold p_over. rd; try assumption; try exact Logic.I.
  destruct (p_ident l) as [[i r1]|] eqn:I; [|now apply gives_ok].
  apply p_ident_ok in I as [I R]; [|assumption]. apply gives_ok; [|exact R]. cbn [opt_all'].
  eapply okP_bind; [exact I|]. intros s S. apply okP_ok. split; [exact S|constructor].
Qed.
#[global] Hint Resolve p_over_gives : gv.
Lemma p_filter_gives {Lx : lexis} en pe : terms en pe -> reader (opt_all' (okP (have en is_term))) (p_filter pe).
Proof. intros E ts F. unfold p_filter. rd; try assumption; exact Logic.I. Qed.
#[global] Hint Resolve p_filter_gives : gv.
Lemma p_null_treatment_ok {Lx : lexis} ts nt r : Forall tok_ok ts -> p_null_treatment ts = (nt, r) ->
  Forall tok_ok r /\ (nt <> None -> measure_ahead r = true).
Proof.
  intros F H. unfold p_null_treatment in H.
  destruct F as [|t ts Ht F]; [injection H as <- <-; split; [constructor|easy]|].
  assert (F' : Forall tok_ok (t :: ts)) by now constructor.
  destruct t; try (injection H as <- <-; split; [assumption|easy]).
  destruct F as [|t ts Ht2 F]; [injection H as <- <-; split; [assumption|easy]|].
  destruct t; try (injection H as <- <-; split; [assumption|easy]).
  destruct ((String.eqb k "IGNORE" || String.eqb k "RESPECT") && String.eqb k0 "NULLS" && measure_ahead ts)%bool eqn:C;
    injection H as <- <-; [|split; [assumption|easy]].
  apply andb_true_iff in C as [_ C]. auto.
Qed.
Lemma p_over_some pe ts r : measure_ahead ts = true -> p_over pe ts <> Ok (None, r).
Proof.
  unfold measure_ahead, p_over. destruct (eat_kw "OVER" ts) as [r0|]; [|discriminate].
  destruct (eat_sym "(" r0) as [r1|].
  - intros _. destruct (p_winspec pe r1) as [[w r2]|]; [|discriminate]. cbn [bind].
    destruct (eat_sym ")" r2); discriminate.
  - destruct (p_ident r0) as [[i r1]|]; discriminate.
Qed.
Lemma p_quant_ok {Lx : lexis} ts q r : Forall tok_ok ts -> p_quant ts = (q, r) -> Forall tok_ok r.
Proof.
  intros F H. unfold p_quant in H. destruct F as [|t ts Ht F]; [now injection H as <- <-|].
  assert (F' : Forall tok_ok (t :: ts)) by now constructor.
  destruct t; try (injection H as <- <-; assumption).
  destruct (String.eqb k "DISTINCT"); [now injection H as <- <-|].
  destruct (String.eqb k "ALL" && starts_expr ts)%bool; now injection H as <- <-.
Qed.
Lemma star_ahead_ok {Lx : lexis} en ts s r : Forall tok_ok ts -> star_ahead ts = Some (s, r) ->
  okP (fun x => args_ok en [x]) s /\ Forall tok_ok r.
Proof.
  intros F H.
  assert (M : forall tr, tref_read tr -> tref_kids tr = [] -> okP (fun x => args_ok en [x]) (mk (NStar tr unknown))).
  { intros tr T K x X. apply mk_ok in X as [-> _]. right. exists tr. split; [reflexivity|].
    constructor; cbn [well_here kids]; [split; [reflexivity|exact T]|rewrite K; constructor]. }
  assert (Y : match p_ident ts with
      | Ok (i, TSym d :: TSym a :: TSym b :: r) =>
          if (String.eqb d "." && String.eqb a "*" && String.eqb b ")")%bool
          then Some ((let* l := visit_ident i in mk (NStar (TRStr l) unknown)), r) else None
      | _ => None
      end = Some (s, r) -> okP (fun x => args_ok en [x]) s /\ Forall tok_ok r).
  { clear H. intro H. destruct (p_ident ts) as [[i r0]|] eqn:I; [|discriminate].
    apply p_ident_ok in I as [I R]; [|exact F].
    destruct R as [|t1 r1 H1 R]; [discriminate|]. destruct t1; try discriminate.
    destruct R as [|t2 r2 H2 R]; [discriminate|]. destruct t2; try discriminate.
    destruct R as [|t3 r3 H3 R]; [discriminate|]. destruct t3; try discriminate.
    destruct (String.eqb s0 "." && String.eqb s1 "*" && String.eqb s2 ")")%bool; [|discriminate].
    injection H as <- <-. split; [|exact R]. eapply okP_bind; [exact I|]. intros l L. now apply M. }
  destruct ts as [|t1 ts]; [now apply Y|]. destruct t1; try (now apply Y).
  destruct ts as [|t2 ts]; [now apply Y|]. destruct t2; try (now apply Y).
  cbn [star_ahead] in H. destruct (String.eqb s0 "*" && String.eqb s1 ")")%bool; [|discriminate].
  injection H as <- <-. split; [now apply M|]. inversion F as [|? ? ? F1]; subst. now inversion F1.
Qed.
Lemma p_call_gives {Lx : lexis} en pe names : terms en pe -> terms en (p_call en pe names).
Proof.
  intros E ts F. unfold p_call. destruct (star_ahead ts) as [[s r]|] eqn:S.
  - apply (star_ahead_ok en) in S as [A R]; [|exact F]. rd. apply v_call_ok.
    unfold call_ok. cbn [c_over c_sorts c_filter c_null c_args].
    split; [assumption|]. split; [exact Logic.I|]. split; [assumption|]. split; [reflexivity|].
    bnd. now apply okP_ok.
  - eapply gives_bind with (Q := okP (Forall (have en is_term))).
    { destruct (no_args_ahead ts); [rd; apply okP_ok; constructor|].
      destruct (p_quant ts) as [q r] eqn:Q. apply p_quant_ok in Q; [|exact F].
      eapply gives_weaken; [exact (sep_gives _ _ E r Q)|]. intros a. apply all_of. }
    intros args r1 A R1. cbn beta iota. rd.
    match goal with |- context [p_null_treatment ?r] => destruct (p_null_treatment r) as [nt r5] eqn:N end.
    apply p_null_treatment_ok in N as [R5 N]; [|assumption].
    destruct (p_over pe r5) as [[ov r6]|] eqn:O; [|apply gives_err]. cbn [bind].
    destruct (p_over_gives en pe E r5 R5 ov r6 O) as [Ov R6]. apply gives_ok; [|exact R6].
    apply v_call_ok. unfold call_ok. cbn [c_over c_sorts c_filter c_null c_args].
    split; [assumption|]. split; [assumption|]. split; [assumption|]. split.
    + intros ->. destruct nt; [|reflexivity]. exfalso. apply (p_over_some pe r5 r6); [apply N; discriminate|exact O].
    + intros l' L. left. now apply A.
Qed.
#[global] Hint Resolve p_call_gives : gv.

Lemma p_overflow_gives {Lx : lexis} : vals (opt_all' (fun x => quoted_text_in (snd x))) p_overflow.
Proof.
  intros ts F. unfold p_overflow. eat; [rd; now apply okP_ok|]. eat; [|apply gives_err].
  destruct (match p_string l with Some sr => sr | None => (Ok "...", l) end) as [s r1] eqn:E0.
  assert (X : okP quoted_text_in s /\ Forall tok_ok r1).
  { destruct (p_string l) as [[s' r']|] eqn:P.
    - injection E0 as -> ->. now apply (p_string_ok l).
    - injection E0 as <- <-. split; [|assumption]. apply okP_ok. split; [|apply paired_doubled; reflexivity].
      split; intro t; [|destruct t as [|? [|? [|? [|? ?]]]]]; discriminate. }
  destruct X as [X1 X2]. rd; bnd; now apply okP_ok.
Qed.
#[global] Hint Resolve p_overflow_gives : gv.
Lemma p_listagg_gives {Lx : lexis} en pe : terms en pe -> terms en (p_listagg pe).
Proof.
  intros E ts F. unfold p_listagg. destruct (p_quant ts) as [q r] eqn:Q. apply p_quant_ok in Q; [|exact F].
  rd1. eapply gives_bind with (Q := opt_all' (okP quoted_text_in)).
  { eat; [|rd; exact Logic.I]. destruct (p_string l) as [[s r3]|] eqn:S; [|apply gives_err].
    apply p_string_ok in S as [S R]; [|assumption]. now apply gives_ok. }
  intros sp r2 Sp R2. cbn beta iota.
  eapply gives_bind with (Q := opt_all' (okP (opt_all' (fun x => quoted_text_in (snd x))))).
  { rd; [assumption|exact Logic.I]. }
  intros ov r3 Ov R3. cbn beta iota. rd. destruct a0 as [l3|]; [|apply gives_err]. rd. now apply v_listagg_ok.
Qed.
Lemma p_whens_gives {Lx : lexis} en pe : terms en pe -> forall k, vals (Forall (br_ok en)) (p_whens pe k).
Proof.
  intros E. induction k as [|k IH]; intros ts F; [apply gives_err|]. cbn [p_whens].
  do 4 rd1.
  destruct (eat_kw "WHEN" r0) eqn:W.
  - rd. eapply okP_bind; [now apply (v_when_ok en)|]. intros cv [B _]. bnd. apply okP_ok. now constructor.
  - rd. eapply okP_bind; [now apply (v_when_ok en)|]. intros cv [B _]. apply okP_ok. constructor; [exact B|constructor].
Qed.
Lemma p_case_gives {Lx : lexis} en pe : terms en pe -> terms en (p_case pe).
Proof.
  intros E ts F. unfold p_case. pose proof (p_whens_gives en pe E) as W.
  eapply gives_bind with (Q := opt_all' (okP (have en is_term))).
  { destruct (eat_kw "WHEN" ts); [now apply gives_ok|]. rd. assumption. }
  intros o r O R. cbn beta iota. eapply gives_bind; [now apply W|]. intros ws r1 Ws R1. cbn beta iota.
  eapply gives_bind with (Q := opt_all' (okP (have en is_term))); [rd; [assumption|exact Logic.I]|].
  intros el r2 El R2. cbn beta iota. rd. now apply v_case_ok.
Qed.
Lemma p_cast_gives {Lx : lexis} en pe tr : terms en pe -> terms en (p_cast pe tr).
Proof. intros E ts F. unfold p_cast. rd. now apply v_cast_ok. Qed.
#[global] Hint Resolve p_listagg_gives p_case_gives p_cast_gives : gv.

(** * Primary expressions *)
Lemma lambda_ahead_ok {Lx : lexis} ts l r : Forall tok_ok ts -> lambda_ahead ts = Some (l, r) -> Forall id_ok l /\ Forall tok_ok r.
Proof.
  intros F H.
  assert (Y : match p_idents ts with
      | Ok (l, TSym a :: TSym b :: r) =>
          if (String.eqb a ")" && String.eqb b "->")%bool then Some (l, r) else None
      | _ => None
      end = Some (l, r) -> Forall id_ok l /\ Forall tok_ok r).
  { clear H. intro H. destruct (p_idents ts) as [[l' r0]|] eqn:I; [|discriminate].
    apply p_idents_gives in I as [[_ I] R]; [|exact F].
    destruct R as [|t1 r1 H1 R]; [discriminate|]. destruct t1; try discriminate.
    destruct R as [|t2 r2 H2 R]; [discriminate|]. destruct t2; try discriminate.
    destruct (String.eqb s ")" && String.eqb s0 "->")%bool; [|discriminate]. injection H as <- <-. now split. }
  destruct ts as [|t1 ts]; [exact (Y H)|]. destruct t1; try exact (Y H).
  destruct ts as [|t2 ts]; [exact (Y H)|]. destruct t2; try exact (Y H).
  cbn [lambda_ahead] in H. destruct (String.eqb s ")" && String.eqb s0 "->")%bool; [|discriminate].
  injection H as <- <-. split; [constructor|]. inversion F as [|? ? ? F1]; subst. now inversion F1.
Qed.
Lemma row_of {Lx : lexis} en l : okP (some_of (have en is_term)) l -> okP (have en is_term) (let* l := l in mk (NRow l)).
Proof. intro L. bnd. hv. apply have_mk; cbn [well_here kids scope]; fa. reflexivity. Qed.
Lemma p_paren_gives {Lx : lexis} en pe pq : terms en pe -> queries en pq -> terms en (p_paren pe pq).
Proof.
  intros E Q ts F. unfold p_paren.
  assert (X : gives (okP (have en is_term))
    (let* (l, r) := sep pe ts in
     let* r1 := need (eat_sym ")" r) in
     Ok ((let* l := l in match l with [x] => Ok x | _ => mk (NRow l) end), r1))).
  { rd. eapply okP_bind; [eassumption|]. intros l0 [N L].
    assert (Y : okP (have en is_term) (mk (NRow l0))) by (apply have_mk; cbn [well_here kids scope]; fa; reflexivity).
    destruct l0 as [|x [|y l0]]; try exact Y. apply okP_ok. now inversion L. }
  cbn zeta. destruct (lambda_ahead ts) as [[vars r]|] eqn:L.
  - apply lambda_ahead_ok in L as [V R]; [|exact F]. rd. now apply v_lambda_ok.
  - destruct (query_ahead ts); [|exact X]. apply gives_orelse; [|exact X]. rd.
    intros x Hx. eapply have_kind; [apply select_term|]. match goal with H : okP _ _ |- _ => now apply H end.
Qed.
#[global] Hint Resolve p_paren_gives : gv.
Lemma p_datetime_gives {Lx : lexis} en n : terms en (p_datetime en n).
Proof.
  intros ts F. unfold p_datetime.
  assert (X : gives (okP (have en is_term)) (Ok (v_datetime en n None, ts))) by (rd; now apply v_datetime_ok).
  destruct F as [|t1 ts H1 F]; [exact X|]. destruct t1; try exact X.
  destruct F as [|t2 ts H2 F]; [exact X|]. destruct t2; try exact X.
  destruct F as [|t3 ts H3 F]; [exact X|]. destruct t3; try exact X.
  match goal with |- context [if ?b then _ else _] => destruct b end; [|exact X]. rd. apply v_datetime_ok. lia.
Qed.
Lemma p_normalize_gives {Lx : lexis} en pv : terms en pv -> terms en (p_normalize pv).
Proof.
  intros V ts F. unfold p_normalize. do 2 rd1.
  assert (X : forall r2, Forall tok_ok r2 -> gives (okP (have en is_term))
     (let* r3 := need (eat_sym ")" r2) in Ok ((let* x := a in mk (NNormalize x None)), r3))).
  { intros r2 R2. rd. bnd. hv. apply have_mk; cbn [well_here kids scope]; fa; reflexivity. }
  eat; [|now apply X].
  match goal with E : Forall tok_ok ?l |- context [match ?l with _ => _ end] => destruct E as [|t l' Ht E]; [apply gives_err|] end.
  destruct t; try apply gives_err. match goal with |- context [if ?b then _ else _] => destruct b end; [|apply gives_err].
  now apply X.
Qed.
#[global] Hint Resolve p_datetime_gives p_normalize_gives : gv.
Lemma none_here {Lx : lexis} en : have en is_term NNone.
Proof. split; [now exists None|]. split; [|reflexivity]. constructor; constructor. Qed.
Lemma none_after_ok {Lx : lexis} {A} en (l : list (result A)) : okP (have en is_term) (none_after l).
Proof.
  induction l as [|a l IH]; [apply okP_ok, none_here|]. intros x H. cbn [none_after] in H.
  destruct a; [|discriminate]. now apply IH.
Qed.
Lemma p_close_gives {Lx : lexis} en l : terms en (p_close l).
Proof. intros ts F. unfold p_close. rd. apply none_after_ok. Qed.
#[global] Hint Resolve p_close_gives : gv.
Lemma p_position_gives {Lx : lexis} en pv : terms en pv -> terms en (p_position pv).
Proof. intros V ts F. unfold p_position. rd. now apply p_close_gives. Qed.
Lemma p_trim_rest_gives {Lx : lexis} en pv b : terms en pv -> terms en (p_trim_rest pv b).
Proof. intros V ts F. unfold p_trim_rest. rd; now apply p_close_gives. Qed.
Lemma p_trim_gives {Lx : lexis} en pv : terms en pv -> terms en (p_trim pv).
Proof.
  intros V ts F. unfold p_trim. rd1; [|apply gives_err]. destruct (trims l) as [r|] eqn:T; [|now apply p_trim_rest_gives].
  apply gives_orelse; apply p_trim_rest_gives; try assumption.
  destruct l as [|[] ?]; try discriminate. cbn [trims] in T. destruct (mem k _); [|discriminate].
  injection T as <-. now match goal with H : Forall tok_ok (_ :: _) |- _ => inversion H end.
Qed.
Lemma p_substring_gives {Lx : lexis} en pv : terms en pv -> terms en (p_substring pv).
Proof. intros V ts F. unfold p_substring. rd; now apply p_close_gives. Qed.
Lemma p_extract_gives {Lx : lexis} en pv : terms en pv -> terms en (p_extract pv).
Proof.
  intros V ts F. unfold p_extract. rd. intros x Hx. destruct (visit_ident _); [|discriminate].
  cbn [bind] in Hx. revert x Hx. apply none_after_ok.
Qed.
Lemma p_grouping_args_gives {Lx : lexis} en k : forall l, terms en (p_grouping_args k l).
Proof.
  induction k as [|k IH]; intros l ts F; [apply gives_err|]. cbn [p_grouping_args].
  eapply gives_bind; [now apply p_qname_gives|]. intros n r N R. cbn beta iota. eat; [now apply IH|].
  rd. apply none_after_ok.
Qed.
Lemma p_grouping_gives {Lx : lexis} en : terms en p_grouping.
Proof.
  intros ts F. unfold p_grouping. rd1; [|apply gives_err]. eat; [apply gives_ok; [apply okP_ok, none_here|assumption]|].
  now apply p_grouping_args_gives.
Qed.
#[global] Hint Resolve p_position_gives p_trim_gives p_substring_gives p_extract_gives p_grouping_gives : gv.
(** What is visited and not kept. *)
Lemma okP_any {A} (v : result A) : okP (fun _ => True) v.
Proof. intros x _. exact Logic.I. Qed.
Lemma p_shape_gives {Lx : lexis} en pe pq h : terms en pe -> queries en pq -> vals (fun _ : unit => True) (p_shape pe pq h).
Proof.
  intros E Q. induction h; intros ts F; cbn [p_shape].
  - apply gives_ok; [apply okP_any|exact F].
  - rd. apply okP_any.
  - rd. apply okP_any.
  - rd. apply okP_any.
  - rd. apply okP_any.
  - destruct (p_string ts) as [[s r]|] eqn:S; [|apply gives_err]. apply p_string_ok in S as [_ R]; [|exact F].
    apply gives_ok; [apply okP_any|exact R].
  - rd. apply okP_any.
  - eapply gives_bind; [now apply p_qname_gives|]. intros l r _ R. cbn beta iota. apply gives_ok; [apply okP_any|exact R].
  - rd. apply okP_any.
  - rd. apply okP_any.
  - destruct F as [|t ts Ht F]; [apply gives_err|]. destruct t; try apply gives_err;
      match goal with |- context [if ?b then _ else _] => destruct b end; try apply gives_err;
      (apply gives_ok; [apply okP_any|now constructor]).
  - rd1; [|apply gives_err]. eapply gives_bind; [now apply IHh|]. intros v r _ R. cbn beta iota. rd. apply okP_any.
  - eapply gives_bind; [now apply IHh1|]. intros v r _ R. cbn beta iota. eapply gives_bind; [now apply IHh2|].
    intros w r' _ R'. cbn beta iota. apply gives_ok; [apply okP_any|exact R'].
  - apply gives_orelse; [now apply IHh|]. apply gives_ok; [apply okP_any|exact F].
  - apply gives_orelse; [now apply IHh1|now apply IHh2].
  - eapply gives_bind; [apply (sep_gives (fun _ : unit => True)); [exact IHh|exact F]|]. intros l r _ R. cbn beta iota.
    apply gives_ok; [apply okP_any|exact R].
Qed.
Lemma p_shapes_gives {Lx : lexis} en pe pq k l : terms en pe -> queries en pq -> have en k NNone ->
  vals (have en k) (p_shapes pe pq l).
Proof.
  intros E Q N. induction l as [|h l IH]; intros ts F; [apply gives_err|]. cbn [p_shapes]. apply gives_orelse; [|now apply IH].
  eapply gives_bind; [now apply (p_shape_gives en)|]. intros v r _ R. cbn beta iota. rd. intros x H. apply bind_inv in H as (u & _ & H). injection H as <-. exact N.
Qed.
Lemma p_json_gives {Lx : lexis} en pe pq k : terms en pe -> queries en pq -> terms en (p_json pe pq k).
Proof. intros E Q ts F. unfold p_json. rd1; [|apply gives_err]. apply p_shapes_gives; auto using none_here. Qed.
Lemma field_ok' {Lx : lexis} en i : id_ok i -> okP (have en is_term) (let* n := visit_ident i in mk (NField n TRNone unknown)).
Proof.
  intro I. eapply okP_bind; [exact I|]. intros n N.
  apply have_mk; cbn [well_here kids scope tref_read tref_kids]; [|constructor|reflexivity].
  split; [reflexivity|]. split; [exact N|]. split; [exact Logic.I|]. intros [].
Qed.
Lemma p_ident_first_gives {Lx : lexis} en pe i ts r : terms en pe -> id_ok i -> Forall tok_ok ts -> Forall tok_ok r ->
  gives (okP (have en is_term)) (p_ident_first en pe i ts r).
Proof.
  intros E I F R. unfold p_ident_first. destruct (p_string r) as [[s r1]|] eqn:S.
  - apply p_string_ok in S as [S R1]; [|exact R]. rd. now apply v_type_ctor_ok.
  - rd; [apply v_lambda_ok; [constructor; [exact I|constructor]|assumption]|now apply p_call_gives|now apply field_ok'].
Qed.
Lemma bare_ok {Lx : lexis} en k f : bare_fn k = Some f -> okP (have en is_term) (mk (NFunc f [] no_fopts)).
Proof.
  intros H. apply func_ok; [|left; constructor|apply no_fopts_ok|discriminate]. right. left. unfold bare_fn in H.
  repeat match type of H with (if ?b then _ else _) = _ => destruct b; [now injection H as <-|] end. discriminate.
Qed.
Lemma p_keyword_gives {Lx : lexis} en pe pv pq k t r v : terms en pe -> terms en pv -> queries en pq -> Forall tok_ok r ->
  p_keyword en pe pv pq k t r = Some v -> gives (okP (have en is_term)) v.
Proof.
  intros E V Q R H. unfold p_keyword in H.
  assert (L : forall l ty, lit_read l ty -> gives (okP (have en is_term)) (Ok (mk (NLit l ty), r))).
  { intros l ty X. rd. apply have_mk; cbn [well_here kids scope]; [exact X|constructor|reflexivity]. }
  destruct (String.eqb k "NULL"); [injection H as <-; now apply L|].
  destruct (String.eqb k "TRUE"); [injection H as <-; now apply L|].
  destruct (String.eqb k "FALSE"); [injection H as <-; now apply L|].
  destruct (String.eqb k "CASE"); [injection H as <-; auto with gv|].
  destruct (String.eqb k "CAST"); [injection H as <-; auto with gv|].
  destruct (String.eqb k "LISTAGG"); [injection H as <-; rd; auto with gv|].
  destruct (String.eqb k "NORMALIZE"); [injection H as <-; auto with gv|].
  destruct (String.eqb k "EXISTS").
  { injection H as <-. rd. bnd. apply okP_ok, none_here. }
  destruct (mem k ["CURRENT_TIME"; "CURRENT_TIMESTAMP"; "LOCALTIME"; "LOCALTIMESTAMP"]); [injection H as <-; auto with gv|].
  destruct (String.eqb k "CURRENT_DATE"); [injection H as <-; rd; now apply v_datetime_ok|].
  destruct (String.eqb k "TRIM"); [injection H as <-; auto with gv|].
  destruct (String.eqb k "EXTRACT"); [injection H as <-; auto with gv|].
  destruct (String.eqb k "GROUPING"); [injection H as <-; auto with gv|].
  match type of H with (if ?b then _ else _) = _ => destruct b end; [injection H as <-; now apply p_json_gives|].
  destruct (bare_fn k) eqn:B; [|discriminate]. injection H as <-. rd. eapply bare_ok; eassumption.
Qed.
Lemma array_of {Lx : lexis} en l : okP (Forall (have en is_term)) l -> okP (have en is_term) (let* l := l in mk (NArray l)).
Proof. intro L. bnd. apply have_mk; cbn [well_here kids scope]; fa. reflexivity. Qed.
Lemma p_soft_gives {Lx : lexis} en pe pv k : terms en pe -> terms en pv -> terms en (p_soft en pe pv k).
Proof.
  intros E V r R. unfold p_soft.
  destruct (String.eqb k "INTERVAL"); [auto with gv|].
  destruct (String.eqb k "DOUBLE").
  { eat; [|apply gives_err]. destruct (p_string l) as [[s r2]|] eqn:S; [|apply gives_err].
    apply p_string_ok in S as [S R2]; [|assumption]. rd. bnd. apply okP_err. }
  destruct (String.eqb k "ROW"); [rd; now apply row_of|].
  destruct (String.eqb k "ARRAY").
  { rd; [|apply array_of; now apply all_of]. apply have_mk; cbn [well_here kids scope]; fa. reflexivity. }
  destruct (String.eqb k "TRY_CAST"); [auto with gv|].
  destruct (String.eqb k "POSITION"); [auto with gv|].
  destruct (mem k ["RUNNING"; "FINAL"]); [|apply gives_err]. rd1. rd1; [|apply gives_err].
  eapply gives_bind; [now apply p_call_gives|]. intros. cbn beta iota. apply gives_ok; [apply okP_err|assumption].
Qed.
Lemma p_last_gives {Lx : lexis} en pv : terms en pv -> terms en (p_last pv).
Proof.
  intros V ts F. destruct F as [|t ts Ht F]; [apply gives_err|]. destruct t; try apply gives_err.
  cbn [p_last]. match goal with |- context [if ?b then _ else _] => destruct b end; [|apply gives_err].
  now apply p_substring_gives.
Qed.
Lemma p_name_first_gives {Lx : lexis} en pe pv : terms en pe -> terms en pv -> terms en (p_name_first en pe pv).
Proof.
  intros E V ts F. unfold p_name_first. rd1. match goal with |- context [if ?b then _ else _] => destruct b end; [apply gives_err|].
  apply gives_orelse; [now apply p_ident_first_gives|now apply p_last_gives].
Qed.
Lemma string_lit {Lx : lexis} en s : okP quoted_text_in s ->
  okP (have en is_term) (let* v := s in mk (NLit (LStr v) (TVarchar (Some (zlen v))))).
Proof. intro S. bnd. apply have_mk; cbn [well_here kids scope lit_read]; fa; try reflexivity; assumption. Qed.
Lemma prim_head_gives {Lx : lexis} en pe pv pq : terms en pe -> terms en pv -> queries en pq -> terms en (prim_head en pe pv pq).
Proof.
  intros E V Q ts F. pose proof (p_name_first_gives en pe pv E V ts F) as X. unfold prim_head.
  assert (St : gives (okP (have en is_term))
     (match p_string ts with
      | Some (s, r) => Ok ((let* v := s in mk (NLit (LStr v) (TVarchar (Some (zlen v))))), r)
      | None => Err SyntaxErr
      end)).
  { destruct (p_string ts) as [[s r]|] eqn:S; [|apply gives_err]. apply p_string_ok in S as [S R]; [|exact F].
    rd. now apply string_lit. }
  destruct F as [|t ts Ht F]; [exact X|].
  assert (Nu : gives (okP (have en is_term))
     (match v_number false t with Some x => Ok (x, ts) | None => Err SyntaxErr end)).
  { destruct (v_number false t) as [x|] eqn:N; [|apply gives_err]. rd. eapply v_number_ok; eassumption. }
  destruct t; try exact X; try exact St; try exact Nu.
  - (* keyword *)
    match goal with |- context [p_keyword en pe pv pq ?a ?b ts] => destruct (p_keyword en pe pv pq a b ts) as [v|] eqn:K end; [eapply p_keyword_gives; [exact E|exact V|exact Q|exact F|exact K]|].
    apply gives_orelse; [now apply p_soft_gives|exact X].
  - rd. apply okP_ok, none_here.
  - destruct (String.eqb s "-").
    { destruct F as [|t ts Ht2 F]; [apply gives_err|]. destruct (v_number true t) eqn:N; [|apply gives_err].
      rd. eapply v_number_ok; eassumption. }
    destruct (String.eqb s "("); [auto with gv|]. rd. apply okP_err.
Qed.
Lemma post_loop_gives {Lx : lexis} en pv : terms en pv -> forall k acc, okP (have en is_term) acc -> terms en (post_loop pv k acc).
Proof.
  intros V. induction k as [|k IH]; intros acc A ts F; [apply gives_err|]. cbn [post_loop].
  destruct F as [|t ts Ht F]; [apply gives_ok; [assumption|constructor]|].
  assert (F' : Forall tok_ok (t :: ts)) by now constructor. destruct t; try (rd; assumption).
  destruct (String.eqb s "[").
  - rd. apply IH; [|assumption]. bnd. bnd. hv. apply have_mk; cbn [well_here kids scope]; fa. reflexivity.
  - destruct (String.eqb s "."); [|rd; assumption].
    destruct (p_ident ts) as [[i r]|] eqn:I; [|rd; assumption]. apply p_ident_ok in I as [I R]; [|exact F].
    apply IH; [now apply v_dereference_ok|exact R].
Qed.
Lemma prim_body_gives {Lx : lexis} en pe pv pq : terms en pe -> terms en pv -> queries en pq -> terms en (prim_body en pe pv pq).
Proof.
  intros E V Q ts F. unfold prim_body. eapply gives_bind; [now apply (prim_head_gives en pe pv pq)|].
  intros a r A R. cbn beta iota. now apply post_loop_gives.
Qed.

(** * Queries *)
Lemma p_alias_gives {Lx : lexis} : reader (opt_all' id_ok) p_alias.
Proof.
  intros ts F. unfold p_alias. eat; [rd; assumption|]. destruct (clause_ahead ts); [rd; exact Logic.I|].
  destruct (p_ident ts) as [[i r]|] eqn:I; [|rd; exact Logic.I]. apply p_ident_ok in I as [I R]; [|exact F]. now apply gives_ok.
Qed.
#[global] Hint Resolve p_alias_gives : gv.
Lemma p_columns_gives {Lx : lexis} : reader (some_of id_ok) p_columns.
Proof. intros ts F. unfold p_columns. rd. assumption. Qed.
#[global] Hint Resolve p_columns_gives : gv.
Lemma p_columns_opt_gives {Lx : lexis} : reader (Forall id_ok) p_columns_opt.
Proof.
  intros ts F. unfold p_columns_opt. destruct (eat_sym "(" ts); [|rd; constructor].
  eapply gives_weaken; [now apply p_columns_gives|]. intros x H. apply H.
Qed.
#[global] Hint Resolve p_columns_opt_gives : gv.
Lemma p_select_item_gives {Lx : lexis} en pe pp : terms en pe -> terms en pp -> vals (have en is_selected) (p_select_item pe pp).
Proof.
  intros E P ts F. unfold p_select_item. eat.
  { rd. apply have_mk; cbn [well_here kids scope tref_read tref_kids]; fa; reflexivity. }
  cbn zeta. rd1. destruct (eat_sym "." r).
  - rd; apply v_select_all_ok; try assumption. exact Logic.I.
  - rd. now apply v_select_single_ok.
Qed.
#[global] Hint Resolve p_select_item_gives : gv.
Lemma p_exprs_opt_gives {Lx : lexis} en pe : terms en pe -> vals (Forall (have en is_term)) (p_exprs_opt pe).
Proof.
  intros E ts F. unfold p_exprs_opt. destruct (eat_sym ")" ts); [rd; apply okP_ok; constructor|].
  eapply gives_weaken; [exact (sep_gives _ _ E ts F)|]. intros a. apply all_of.
Qed.
#[global] Hint Resolve p_exprs_opt_gives : gv.
Lemma p_gset_gives {Lx : lexis} en pe : terms en pe -> vals (Forall (have en is_term)) (p_gset pe).
Proof.
  intros E ts F. unfold p_gset. cbn zeta.
  assert (X : gives (okP (Forall (have en is_term))) (let* (e, r) := pe ts in Ok ((let* x := e in Ok [x]), r))).
  { rd. bnd. apply okP_ok. constructor; [assumption|constructor]. }
  eat; [|exact X]. apply gives_orelse; [|exact X]. rd. assumption.
Qed.
#[global] Hint Resolve p_gset_gives : gv.
Lemma paren_gives {Lx : lexis} {A} (P : A -> Prop) p : reader P p -> reader P (p_parenthesised p).
Proof. intros H ts F. unfold p_parenthesised. rd. assumption. Qed.
#[global] Hint Resolve paren_gives : gv.
Lemma p_group_gives {Lx : lexis} en pe : terms en pe -> vals (grp_ok en) (p_group pe).
Proof.
  intros E ts F. unfold p_group. cbn zeta.
  assert (X : gives (okP (grp_ok en)) (let* (l, r) := p_gset pe ts in Ok (v_group (@GSet node) l, r))).
  { rd. eapply v_group_ok; [eassumption|trivial]. }
  destruct F as [|t ts Ht F]; [exact X|]. destruct t; try exact X.
  destruct (String.eqb k "ROLLUP"); [rd; eapply v_group_ok; [eassumption|trivial]|].
  destruct (String.eqb k "CUBE"); [rd; eapply v_group_ok; [eassumption|trivial]|].
  destruct (String.eqb k "GROUPING"); [|exact X].
  destruct (eat_kw "SETS" ts) as [r1|] eqn:S; [|exact X]. apply eat_kw_ok in S; [|exact F].
  rd. eapply v_group_ok; [eassumption|]. intros l [_ L]. unfold grp_ok. cbn [group_kids].
  clear - L. induction L as [|x l H L IH]; [constructor|]. cbn [concat]. now apply Forall_app.
Qed.
#[global] Hint Resolve p_group_gives : gv.
Lemma p_group_quant_ok {Lx : lexis} ts q r : Forall tok_ok ts -> p_group_quant ts = (q, r) -> Forall tok_ok r.
Proof.
  intros F H. pose proof (p_quant_ok ts q r F) as Q.
  destruct ts as [|[] [|[] ts]]; try exact (Q H). cbn [p_group_quant] in H.
  destruct (String.eqb k "ALL" && mem k0 ["ROLLUP"; "CUBE"])%bool; [|exact (Q H)].
  injection H as _ <-. inversion F; assumption.
Qed.
Lemma p_groupby_gives {Lx : lexis} en pe : terms en pe -> vals (gb_ok en) (p_groupby pe).
Proof.
  intros E ts F. unfold p_groupby. destruct (p_group_quant ts) as [q r] eqn:Q. apply p_group_quant_ok in Q; [|exact F].
  rd. now apply v_groupby_ok.
Qed.
#[global] Hint Resolve p_groupby_gives : gv.
Lemma p_windef_gives {Lx : lexis} en pe : terms en pe -> vals (named_ok en) (p_windef pe).
Proof.
  intros E ts F. unfold p_windef. rd. eapply okP_bind; [eassumption|]. intros n N. bnd. apply okP_ok. now split.
Qed.
#[global] Hint Resolve p_windef_gives : gv.
Lemma p_clause_gives {Lx : lexis} {A} (P : A -> Prop) k p : reader P p -> reader (opt_all' P) (p_clause k p).
Proof. intros H ts F. unfold p_clause. rd; [assumption|exact Logic.I]. Qed.
#[global] Hint Resolve p_clause_gives : gv.
Lemma after_by_gives {Lx : lexis} {A} (P : A -> Prop) p : reader P p -> reader P (after_by p).
Proof. intros H ts F. unfold after_by. rd. now apply H. Qed.
#[global] Hint Resolve after_by_gives : gv.
Notation sources en p := (forall ts, Forall tok_ok ts -> gives (okP (have en is_source)) (p ts)).
Lemma p_from_gives {Lx : lexis} en prel : sources en prel ->
  forall k, reader (fun ln => okP (Forall (have en is_source)) (fst ln)) (p_from prel k).
Proof.
  intros P. induction k as [|k IH]; intros ts F; [apply gives_err|]. cbn [p_from].
  rd.
  - destruct a0 as [l0 n]. cbn [fst] in *. rd. cbn [fst]. bnd. bnd. apply okP_ok. now constructor.
  - cbn [fst]. bnd. apply okP_ok. constructor; [assumption|constructor].
Qed.
Lemma p_select_gives {Lx : lexis} en pe pp prel : terms en pe -> terms en pp -> sources en prel ->
  queries en (p_select pe pp prel).
Proof.
  intros E P R ts F. unfold p_select. destruct (p_quant ts) as [q r] eqn:Q. apply p_quant_ok in Q; [|exact F].
  rd1. eapply gives_bind; [apply (p_clause_gives (fun ln => okP (Forall (have en is_source)) (fst ln))); [|assumption];
    intros ts0 F0; now apply p_from_gives|].
  intros fr r2 Fr R2. cbn beta iota. rd1. rd1. rd1.
  eapply gives_bind with (Q := opt_all' (okP (Forall (named_ok en)))).
  { match goal with |- gives _ (if ?b then _ else _) => destruct b end; [|rd; exact Logic.I].
    eapply gives_weaken; [apply (p_clause_gives (okP (some_of (named_ok en)))); [auto with gv|assumption]|].
    intros [l|]; [cbn [opt_all']; apply all_of|trivial]. }
  intros ws r6 W R6. cbn beta iota. rd. apply v_select_ok; try assumption; [now apply all_of|].
  destruct fr as [[l n]|]; [exact Fr|exact Logic.I].
Qed.
Lemma p_query_primary_gives {Lx : lexis} en pe pp prel pqn : terms en pe -> terms en pp -> sources en prel -> queries en pqn ->
  queries en (p_query_primary pe pp prel pqn).
Proof.
  intros E P R Q ts F. unfold p_query_primary. destruct F as [|t ts Ht F]; [apply gives_err|].
  destruct t; try apply gives_err.
  - destruct (String.eqb k "SELECT"); [now apply p_select_gives|].
    destruct (String.eqb k "TABLE").
    { rd. eapply okP_bind; [now apply (v_table_ok en)|]. intros t0 T. hv.
      apply have_mk; cbn [well_here kids scope qattrs_kids no_qattrs map app]; fa; try reflexivity. apply no_qattrs_read. }
    destruct (String.eqb k "VALUES"); [|apply gives_err].
    rd. bnd. hv. apply have_mk; cbn [well_here kids scope qattrs_kids no_qattrs map app]; fa; try reflexivity.
    apply no_qattrs_read.
  - rd. bnd. apply okP_ok. split; [now exists None|]. split; [|reflexivity]. constructor; constructor.
Qed.
Lemma p_set_quant_ok {Lx : lexis} ts q r : Forall tok_ok ts -> p_set_quant ts = (q, r) -> Forall tok_ok r.
Proof.
  intros F H. unfold p_set_quant in H. destruct F as [|t ts Ht F]; [now injection H as <- <-|].
  assert (F' : Forall tok_ok (t :: ts)) by now constructor.
  destruct t; try (injection H as <- <-; assumption).
  destruct (mem k ["DISTINCT"; "ALL"]); now injection H as <- <-.
Qed.
Lemma term_loop_gives {Lx : lexis} en pt : (forall l, queries en (pt l)) ->
  forall k lvl acc, okP (have en is_select) acc -> queries en (term_loop pt k lvl acc).
Proof.
  intros P. induction k as [|k IH]; intros lvl acc A ts F; [apply gives_err|]. cbn [term_loop].
  destruct F as [|t ts Ht F]; [apply gives_ok; [assumption|constructor]|].
  assert (F' : Forall tok_ok (t :: ts)) by now constructor. destruct t; try (rd; assumption).
  destruct (set_kw k0) as [[p op]|]; [|rd; assumption]. destruct (Nat.leb lvl p); [|rd; assumption].
  destruct (p_set_quant ts) as [q r1] eqn:Q. apply p_set_quant_ok in Q; [|exact F].
  pose proof (P (S p)) as Pp. rd. apply IH; [now apply v_set_ok|assumption].
Qed.
Lemma term_body_gives {Lx : lexis} en pt pprim lvl : (forall l, queries en (pt l)) -> queries en pprim -> queries en (term_body pt pprim lvl).
Proof. intros P Q ts F. unfold term_body. rd. now apply term_loop_gives. Qed.
Lemma p_row_count_gives {Lx : lexis} : vals (fun z => (0 <= z)%Z) p_row_count.
Proof.
  intros ts F. unfold p_row_count. destruct F as [|t ts Ht F]; [apply gives_err|]. destruct t; try apply gives_err.
  - rd. apply okP_ok. lia.
  - rd. apply okP_err.
Qed.
#[global] Hint Resolve p_row_count_gives : gv.
Lemma eat_rows_ok {Lx : lexis} ts r : Forall tok_ok ts -> eat_rows ts = Some r -> Forall tok_ok r.
Proof.
  intros F H. unfold eat_rows in H. destruct (eat_kw "ROW" ts) eqn:E.
  - injection H as ->. now apply eat_kw_ok in E.
  - now apply eat_kw_ok in H.
Qed.
Lemma p_offset_gives {Lx : lexis} : reader (opt_all' (okP (fun z => (0 <= z)%Z))) p_offset.
Proof.
  intros ts F. unfold p_offset. eat; [|rd; exact Logic.I]. rd1.
  destruct (eat_rows r) eqn:E2; (apply gives_ok; [assumption|]); [now apply eat_rows_ok in E2|assumption].
Qed.
#[global] Hint Resolve p_offset_gives : gv.
Lemma p_limit_gives {Lx : lexis} : reader (opt_all' (okP opt_nonneg)) p_limit.
Proof.
  intros ts F. unfold p_limit. eat.
  - assert (X : gives (opt_all' (okP opt_nonneg)) (let* (n, r1) := p_row_count l in Ok (Some (let* z := n in Ok (Some z)), r1))).
    { rd. cbn [opt_all']. bnd. now apply okP_ok. }
    destruct E as [|t l Ht E]; [exact X|]. destruct t; try exact X. destruct (String.eqb k "ALL"); [|apply gives_err].
    rd. cbn [opt_all']. match goal with |- context [if ?b then _ else _] => destruct b end; [now apply okP_ok|apply okP_err].
  - eat; [|rd; exact Logic.I].
    destruct E as [|t l Ht E]; [apply gives_err|]. destruct t; try apply gives_err.
    destruct (mem k ["FIRST"; "NEXT"]); [|apply gives_err]. cbn [bind].
    assert (R2 : Forall tok_ok (match p_row_count l with Ok (_, r2) => r2 | Err _ => l end)).
    { destruct (p_row_count l) as [[n r2]|] eqn:N; [|assumption]. now apply p_row_count_gives in N. }
    destruct (eat_rows (match p_row_count l with Ok (_, r2) => r2 | Err _ => l end)) as [r3|] eqn:E3; [|apply gives_err].
    apply eat_rows_ok in E3; [|exact R2]. cbn [need bind]. rd; exact Logic.I.
Qed.
#[global] Hint Resolve p_limit_gives : gv.
Lemma qnw_body_gives {Lx : lexis} en pt pe : queries en pt -> terms en pe -> queries en (qnw_body pt pe).
Proof. intros P E ts F. unfold qnw_body. rd. now apply v_query_no_with_ok. Qed.
Lemma p_named_gives {Lx : lexis} en pq : queries en pq -> vals (have en is_named) (p_named pq).
Proof. intros Q ts F. unfold p_named. rd. now apply v_named_ok. Qed.
#[global] Hint Resolve p_named_gives : gv.
Lemma query_body_gives {Lx : lexis} en pqn pq : queries en pqn -> queries en pq -> queries en (query_body pqn pq).
Proof.
  intros N Q ts F. unfold query_body. eat; [|rd; now apply v_query_ok].
  match goal with |- gives _ (let '(_, _) := ?x in _) => destruct x as [rc r] eqn:X end.
  assert (R : Forall tok_ok r).
  { destruct (eat_kw "RECURSIVE" l) eqn:E1; injection X as <- <-; [now apply eat_kw_ok in E1|assumption]. }
  rd. apply v_query_ok; [assumption|]. now apply all_of.
Qed.

(** * Relations *)
Lemma p_relation_primary_gives {Lx : lexis} en pe pq prel : terms en pe -> queries en pq -> sources en prel ->
  sources en (p_relation_primary pe pq prel).
Proof.
  intros E Q R ts F. unfold p_relation_primary. cbn zeta.
  assert (X : gives (okP (have en is_source)) (let* (l, r) := p_qname ts in Ok (v_table l, r))) by (rd; now apply v_table_ok).
  destruct F as [|t ts Ht F]; [exact X|]. destruct t; try exact X.
  - destruct (String.eqb k "UNNEST").
    { rd; bnd; hv; apply have_mk; cbn [well_here kids scope]; fa; reflexivity. }
    match goal with |- context [if ?b then _ else _] => destruct b end.
    { rd. bnd. hv. apply have_mk; cbn [well_here kids scope]; fa. reflexivity. }
    match goal with |- context [if ?b then _ else _] => destruct b end; [|exact X].
    rd1; [|apply gives_err]. apply (p_shapes_gives en); auto. exact (have_kind en is_term is_source NNone (fun _ => eq_refl) (none_here en)).
  - destruct (String.eqb s "("); [|apply gives_err]. rd; [|assumption].
    intros x Hx. eapply have_kind; [apply select_source|]. match goal with H : okP _ _ |- _ => now apply H end.
Qed.
Lemma p_aliased_gives {Lx : lexis} en pe pq prel : terms en pe -> queries en pq -> sources en prel -> sources en (p_aliased pe pq prel).
Proof.
  intros E Q R ts F. unfold p_aliased. eapply gives_bind; [now apply (p_relation_primary_gives en)|].
  intros x r X Rr. cbn beta iota. rd1. destruct a as [i|]; rd; apply v_aliased_rel_ok; try assumption; constructor.
Qed.
Lemma p_sampled_gives {Lx : lexis} en pe pq prel : terms en pe -> queries en pq -> sources en prel -> sources en (p_sampled pe pq prel).
Proof.
  intros E Q R ts F. unfold p_sampled. eapply gives_bind; [now apply (p_aliased_gives en)|].
  intros x r X Rr. cbn beta iota. destruct (clause_ahead r); [|rd; assumption].
  destruct (eat_kw "TABLESAMPLE" r) as [l|] eqn:T; [|rd; assumption]. apply eat_kw_ok in T; [|exact Rr].
  destruct T as [|t l Ht T]; [rd; assumption|]. destruct t; try (rd; assumption).
  rd. bnd. match goal with |- context [v_sample_type ?b] => destruct (v_sample_type b) end; [|apply okP_err]. cbn [bind]. bnd. hv.
  apply have_mk; cbn [well_here kids scope]; fa. reflexivity.
Qed.
Lemma eat_outer_ok {Lx : lexis} ts : Forall tok_ok ts -> Forall tok_ok (eat_outer ts).
Proof. intro F. unfold eat_outer. destruct (eat_kw "OUTER" ts) eqn:E; [now apply eat_kw_ok in E|exact F]. Qed.
Lemma p_join_type_ok {Lx : lexis} ts jt r : Forall tok_ok ts -> p_join_type ts = (jt, r) -> Forall tok_ok r /\ is_cross jt = false.
Proof.
  intros F H. unfold p_join_type in H. destruct F as [|t ts Ht F]; [injection H as <- <-; now split|].
  assert (F' : Forall tok_ok (t :: ts)) by now constructor. pose proof (eat_outer_ok ts F) as O.
  destruct t; try (injection H as <- <-; now split).
  repeat match type of H with (if ?b then _ else _) = _ => destruct b; [injection H as <- <-; now split|] end.
  injection H as <- <-; now split.
Qed.
Lemma p_criteria_gives {Lx : lexis} en pe : terms en pe -> vals (jc_ok en) (p_criteria pe).
Proof.
  intros E ts F. unfold p_criteria. rd.
  - bnd. now apply okP_ok.
  - match goal with H : some_of id_ok ?l |- _ => destruct H as [N I] end.
    eapply okP_bind with (Q := fun ns => ns <> [] /\ Forall name_text ns).
    { intros ns En. split; [eapply each_nonempty; eassumption|eapply each_idents; eassumption]. }
    intros ns H. now apply okP_ok.
Qed.
#[global] Hint Resolve p_criteria_gives : gv.
Lemma rel_loop_gives {Lx : lexis} en pe ps prel : terms en pe -> sources en ps -> sources en prel ->
  forall k acc, okP (have en is_source) acc -> sources en (rel_loop pe ps prel k acc).
Proof.
  intros E P R. induction k as [|k IH]; intros acc A ts F; [apply gives_err|]. cbn [rel_loop].
  destruct (join_ahead ts); [|rd; assumption].
  eat; [rd; apply IH; [now apply v_join_ok|assumption]|]. eat.
  - destruct (p_join_type l) as [jt r1] eqn:J. apply p_join_type_ok in J as [J1 J2]; [|assumption].
    rd. apply IH; [now apply v_join_ok|assumption].
  - destruct (p_join_type ts) as [jt r1] eqn:J. apply p_join_type_ok in J as [J1 J2]; [|assumption].
    rd. apply IH; [now apply v_join_ok|assumption].
Qed.
Lemma relation_body_gives {Lx : lexis} en pe pq prel : terms en pe -> queries en pq -> sources en prel ->
  sources en (relation_body pe pq prel).
Proof.
  intros E Q R ts F. unfold relation_body. eapply gives_bind; [now apply (p_sampled_gives en)|].
  intros a r A Rr. cbn beta iota. apply rel_loop_gives; try assumption. now apply p_sampled_gives.
Qed.

(** * The grammar *)
Lemma reads_well {Lx : lexis} en n :
  (forall l, terms en (p_bool en n l)) /\ (forall l, terms en (p_value en n l)) /\ terms en (p_primary en n)
  /\ queries en (p_query en n) /\ queries en (p_query_no_with en n) /\ (forall l, queries en (p_term en n l))
  /\ sources en (p_relation en n).
Proof.
  induction n as [|n (B & V & P & Q & N & T & R)].
  - split; [|split; [|split; [|split; [|split; [|split]]]]]; intros; apply gives_err.
  - split; [|split; [|split; [|split; [|split; [|split]]]]].
    + intros l ts F. cbn [p_bool]. apply bool_body_gives; auto.
    + intros l ts F. cbn [p_value]. apply value_body_gives; auto.
    + intros ts F. cbn [p_primary]. apply prim_body_gives; auto.
    + intros ts F. cbn [p_query]. apply query_body_gives; auto.
    + intros ts F. cbn [p_query_no_with]. apply qnw_body_gives; auto.
    + intros l ts F. cbn [p_term]. apply term_body_gives; auto. apply p_query_primary_gives; auto.
    + intros ts F. cbn [p_relation]. apply relation_body_gives; auto.
Qed.
Lemma expression_have en s e : expression_from_sql en s = Ok e -> @have (lexis_of (lex s)) en is_term e.
Proof.
  unfold expression_from_sql, expression_of_tokens. intro H.
  destruct (p_bool en _ 0 (lex s)) as [[v r]|] eqn:P; [|discriminate]. cbn [bind] in H.
  destruct r; [|discriminate]. destruct (@reads_well (lexis_of (lex s)) en (parse_fuel (lex s))) as [B _].
  pose proof (B 0 (lex s) (lex_has s) v [] P) as [V _]. now apply V.
Qed.
Lemma query_have en s e : query_from_sql en s = Ok e -> @have (lexis_of (lex s)) en is_select e.
Proof.
  unfold query_from_sql, query_of_tokens. intro H.
  destruct (p_query en _ (lex s)) as [[v r]|] eqn:P; [|discriminate]. cbn [bind] in H.
  destruct (@reads_well (lexis_of (lex s)) en (parse_fuel (lex s))) as (_ & _ & _ & Q & _).
  pose proof (Q (lex s) (lex_has s) v r P) as [V _]. now apply V.
Qed.
