(** Everything that is accepted has a reading by the rules of Accepts.v (for C63):
    operators, predicates, calls and windows. *)
From Coq Require Import String Ascii List Bool Arith NArith ZArith Lia.
From Verif Require Import PyStr StrFacts Types Inference Lexer TypeParser Functions Ast Sql Walk Parser Tokens NodeFacts
  ParseMore ParseMoreQ Typing PropertiesRules Grammar Accepts AcceptFacts.
Import ListNotations.
Open Scope nat_scope.
Open Scope string_scope.
Open Scope list_scope.

Notation expr en c := (fun e ts => means en (FExpr c e) ts).
Notation query en := (fun q ts => means en (FQuery q) ts).

Lemma mk_has e x : mk e = Ok x -> x = e /\ buildable e.
Proof.
  unfold mk. intros (t & E & H)%bind_inv. injection H as <-. split; [reflexivity|]. exists t. now apply C62_types.
Qed.
Lemma means_eq en f ts us : means en f us -> ts = us -> means en f ts.
Proof. now intros H ->. Qed.
Ltac get :=
  repeat match goal with
    | H : val ?Q (Ok ?b) ?p |- _ => specialize (H b eq_refl); cbn beta in H
    | H : val ?Q ?v ?p, E : ?v = Ok ?b |- _ => apply H in E; cbn beta in E
    end.
Ltac made := repeat match goal with H : mk _ = Ok _ |- _ => apply mk_has in H as [-> ?] end.
Ltac vals := intros ? ?; unbind; get; made.
Create HintDb rules.
#[global] Hint Constructors negation direction nulls any_quantifier quant as_name cols treatment upto sign : rules.
#[global] Hint Unfold word : rules.
Ltac rule R := eapply means_eq; [eapply R; eauto with rules | toks].

(** * Intervals *)
Lemma v_interval_is m s f t ps : val text s ps -> forall tm u tg, sign m tm -> field_word u f -> upto t tg ->
  val interval (v_interval m s f t) (tm ++ ps ++ u :: tg).
Proof.
  intros S tm u tg M U G e E. unfold v_interval in E. apply bind_inv in E as (v & E & H). apply S in E.
  apply mk_has in H as [-> B]. change (interval (NInterval (signed_text m v) f t) (tm ++ ps ++ u :: tg)). constructor; auto.
Qed.
Lemma p_interval_eats : takes (val interval) p_interval.
Proof.
  intro ts. unfold p_interval.
  match goal with |- eats _ _ (let '(_, _) := ?x in _) => destruct x as [m r] eqn:X end.
  assert (R : exists tm, ts = tm ++ r /\ sign m tm).
  { destruct (eat_sym "-" ts) eqn:E1; [injection X as <- <-; apply eat_sym_some in E1 as ->; exists [TSym "-"]; split; [reflexivity|constructor]|].
    destruct (eat_sym "+" ts) eqn:E2; injection X as <- <-; [apply eat_sym_some in E2 as ->; exists [TSym "+"]|exists []];
      (split; [reflexivity|constructor]). }
  destruct R as (tm & -> & M).
  destruct (p_string r) as [[s r1]|] eqn:S; [|apply eats_err]. apply p_string_some in S as (ps & -> & S).
  assert (G : eats (fun e q => val interval e (tm ++ ps ++ q)) r1
    (let* (f, r2) := p_interval_field r1 in
     match eat_kw "TO" r2 with
     | Some r3 => let* (t, r4) := p_interval_field r3 in Ok (v_interval m s f (Some t), r4)
     | None => Ok (v_interval m s f None, r2)
     end)).
  { rd; repeat match goal with H : exists u, _ |- _ => destruct H as (? & -> & ?) end; cbn [app];
    apply v_interval_is; eauto with rules. }
  intros a b E. apply G in E as (q & -> & E). exists (tm ++ ps ++ q). now rewrite <- !app_assoc.
Qed.
#[global] Hint Resolve p_interval_eats : ac.

(** * Operators *)
Definition lv (l : nat) : nat := Nat.max 5 (4 + l).
Definition stops (l : nat) (ts : list token) : Prop :=
  match ts with
  | TSym s :: _ => match vop_sym s with Some (p, _) => p < l | None => True end
  | _ => at_zone ts = false
  end.
Lemma vop_cases s p op : vop_sym s = Some (p, op) ->
  (exists o, op = VArith o /\ p = 3 /\ In (o, s) [(BMul, "*"); (BDiv, "/"); (BMod, "%")])
  \/ (exists o, op = VArith o /\ p = 2 /\ In (o, s) [(BAdd, "+"); (BMinus, "-")])
  \/ (op = VConcat /\ p = 1 /\ s = "||").
Proof.
  unfold vop_sym. intro H.
  repeat match goal with H : (if String.eqb ?a ?b then _ else _) = _ |- _ => destruct (String.eqb_spec a b) as [->|_] end;
    try discriminate; injection H as <- <-; eauto 10 using in_eq, in_cons.
Qed.
Lemma value_loop_stops pv k : forall lvl acc ts v r, value_loop pv k lvl acc ts = Ok (v, r) -> stops lvl r.
Proof.
  induction k as [|k IH]; intros lvl acc ts v r H; [discriminate|]. cbn [value_loop] in H.
  assert (X : match ts with TSym _ :: _ => False | _ => True end ->
    (if at_zone ts then
       let* (z, r) := p_zone_value (skipn 3 ts) in value_loop pv k lvl (let* _ := acc in z) r
     else Ok (acc, ts)) = Ok (v, r) -> stops lvl r).
  { intros T E. destruct (at_zone ts) eqn:Z.
    - apply bind_inv in E as ([z q] & _ & E). now apply IH in E.
    - injection E as <- <-. unfold stops. destruct ts as [|[]]; solve [assumption|destruct T]. }
  destruct ts as [|t ts]; [now apply X|]. destruct t; try now apply X.
  destruct (vop_sym s) as [[p op]|] eqn:V.
  - destruct (Nat.leb_spec lvl p) as [L|L].
    + apply bind_inv in H as ([b q] & _ & H). now apply IH in H.
    + injection H as <- <-. unfold stops. now rewrite V.
  - injection H as <- <-. unfold stops. now rewrite V.
Qed.
Lemma vop_means en op a b s p ps q c : vop_sym s = Some (p, op) -> 4 + p <= c ->
  val (expr en c) a ps -> val (expr en (lv (S p))) b q -> val (expr en (4 + p)) (v_vop op a b) (ps ++ TSym s :: q).
Proof.
  intros V C A B e E. apply vop_cases in V as [(o & -> & -> & I)|[(o & -> & -> & I)|(-> & -> & ->)]]; cbn [v_vop] in E.
  1,2: unfold v_arith in E; apply bind_inv in E as (x & A1 & E); apply bind_inv in E as (y & B1 & E);
    apply A in A1; apply B in B1; destruct x; try discriminate E; apply mk_has in E as [-> M]; cbn [Nat.add];
    first [eapply m_product | eapply m_sum]; eauto; eapply m_tighter; eassumption.
  unfold v_concat in E. apply bind_inv in E as (x & A1 & E); apply bind_inv in E as (y & B1 & E).
  apply A in A1; apply B in B1. apply mk_has in E as [-> M]. eapply m_concat; eauto. eapply m_tighter; eassumption.
Qed.
Lemma at_zone_some ts : at_zone ts = true -> exists x y z r, ts = TKw "AT" x :: TKw "TIME" y :: TKw "ZONE" z :: r.
Proof.
  destruct ts as [|[] [|[] [|[] ts]]]; try discriminate. unfold at_zone.
  intros [[A B]%andb_true_iff C]%andb_true_iff. apply String.eqb_eq in A as ->, B as ->, C as ->. eauto.
Qed.
Lemma p_zone_value_eats : takes (val (fun e p => exists w q, p = TKw "INTERVAL" w :: q /\ interval e q)) p_zone_value.
Proof.
  intro ts. unfold p_zone_value. eat.
  - eapply eats_weaken; [apply p_interval_eats|]. cbn beta. intros e p H b E. eauto.
  - destruct (p_string ts) as [[s r]|] eqn:S; [|apply eats_err]. apply p_string_some in S as (ps & -> & S).
    intros a r' H. injection H as <- <-. exists ps. split; [reflexivity|]. vals. discriminate.
Qed.
Lemma value_loop_eats en pv : (forall l, l <= 4 -> takes (val (expr en (lv l))) (pv l)) ->
  (forall l ts v r, pv l ts = Ok (v, r) -> stops l r) ->
  forall k lvl c acc ts p, lvl <= 4 -> lv lvl <= c -> val (expr en c) acc p -> 9 <= c \/ stops (c - 3) ts ->
  eats (val (fun e q => means en (FExpr (lv lvl) e) (p ++ q))) ts (value_loop pv k lvl acc ts).
Proof.
  intros P HS. induction k as [|k IH]; intros lvl c acc ts p L C A R; [apply eats_err|]. cbn [value_loop].
  assert (D : eats (val (fun e q => means en (FExpr (lv lvl) e) (p ++ q))) ts (Ok (acc, ts))).
  { apply eats_ok. vals. rewrite app_nil_r. eapply m_tighter; eassumption. }
  assert (X : match ts with TSym _ :: _ => False | _ => True end ->
    eats (val (fun e q => means en (FExpr (lv lvl) e) (p ++ q))) ts
    (if at_zone ts then
       let* (z, r) := p_zone_value (skipn 3 ts) in value_loop pv k lvl (let* _ := acc in z) r
     else Ok (acc, ts))).
  { intros T. destruct (at_zone ts) eqn:Z; [|exact D].
    assert (C9 : 9 <= c).
    { destruct R as [R|R]; [exact R|]. exfalso. unfold stops in R. destruct ts as [|[]]; try discriminate; congruence. }
    apply at_zone_some in Z as (x & y & z & r & ->). cbn [skipn].
    do 3 apply eats_cons. eapply eats_bind; [apply p_zone_value_eats|]. cbn beta. intros e q r' -> Q. cbn beta iota.
    eapply eats_weaken.
    - apply (IH lvl 9 _ _ (p ++ TKw "AT" x :: TKw "TIME" y :: TKw "ZONE" z :: q)); [exact L|unfold lv; lia| |left; lia].
      vals. destruct H as (w & q' & -> & I). eapply m_zone; [eapply m_tighter; eassumption|exact I].
    - cbn beta. intros v q' H b E. apply H in E. now rewrite <- app_assoc in E. }
  destruct ts as [|t ts]; [now apply X|]. destruct t; try now apply X.
  destruct (vop_sym s) as [[o op]|] eqn:V; [|exact D]. destruct (Nat.leb_spec lvl o) as [LO|LO]; [|exact D].
  assert (CO : 4 + o <= c).
  { destruct R as [R|R].
    - apply vop_cases in V as [(? & _ & -> & _)|[(? & _ & -> & _)|(_ & -> & _)]]; lia.
    - unfold stops in R. rewrite V in R. lia. }
  assert (O : 1 <= o <= 3) by (apply vop_cases in V as [(? & _ & -> & _)|[(? & _ & -> & _)|(_ & -> & _)]]; lia).
  apply eats_cons. assert (O4 : S o <= 4) by lia.
  intros a r E. apply bind_inv in E as ([b r1] & E1 & E2). pose proof (HS _ _ _ _ E1) as St.
  apply (P _ O4) in E1 as (q & -> & B).
  apply (IH lvl (4 + o) _ _ (p ++ TSym s :: q)) in E2 as (q' & -> & W).
  - exists (q ++ q'). split; [now rewrite <- app_assoc|]. vals. rewrite <- app_assoc in H. exact H.
  - exact L.
  - unfold lv. lia.
  - eapply vop_means; eassumption.
  - right. replace (4 + o - 3) with (Datatypes.S o) by lia. exact St.
Qed.
Lemma stops_le a b ts : a <= b -> stops a ts -> stops b ts.
Proof. unfold stops. destruct ts as [|[]]; auto. destruct (vop_sym s) as [[p op]|]; auto. lia. Qed.
Lemma value_body_stops pv pp lvl ts v r : value_body pv pp lvl ts = Ok (v, r) -> stops lvl r.
Proof. unfold value_body. intros ([a q] & _ & H)%bind_inv. now apply value_loop_stops in H. Qed.
Lemma no_number_app p r : match p ++ r with t :: _ => is_number t = false | [] => True end -> no_number p = true.
Proof. destruct p as [|[]]; cbn; congruence. Qed.
Lemma value_body_eats en pv pp : (forall l, l <= 4 -> takes (val (expr en (lv l))) (pv l)) ->
  (forall l ts v r, pv l ts = Ok (v, r) -> stops l r) -> takes (val (expr en 10)) pp ->
  forall lvl, lvl <= 4 -> takes (val (expr en (lv lvl))) (value_body pv pp lvl).
Proof.
  intros P HS PP lvl L ts a r E. unfold value_body in E. apply bind_inv in E as ([v r1] & E1 & E2).
  assert (G : exists p c, ts = p ++ r1 /\ val (expr en c) v p /\ lv lvl <= c /\ (9 <= c \/ stops (c - 3) r1)).
  { assert (D : pp ts = Ok (v, r1) -> exists p c, ts = p ++ r1 /\ val (expr en c) v p /\ lv lvl <= c /\ (9 <= c \/ stops (c - 3) r1)).
    { intro E. apply PP in E as (p & -> & V). exists p, 10. repeat apply conj; [reflexivity|exact V|unfold lv; lia|left; lia]. }
    destruct ts as [|t ts]; [now apply D|]. destruct t; try now apply D.
    assert (U : forall u, (forall e te, means en (FExpr 8 e) te -> (exists q, ts = te ++ q) -> buildable (NUn u e) -> means en (FExpr 8 (NUn u e)) (TSym s :: te)) ->
      (let* (a, r2) := pv 4 ts in Ok (v_unary u a, r2)) = Ok (v, r1) ->
      exists p c, TSym s :: ts = p ++ r1 /\ val (expr en c) v p /\ lv lvl <= c /\ (9 <= c \/ stops (c - 3) r1)).
    { intros u R E. apply bind_inv in E as ([b q] & E3 & E4). injection E4 as <- <-.
      pose proof (HS _ _ _ _ E3) as St. apply (P 4 (le_n _)) in E3 as (p & -> & B).
      exists (TSym s :: p), 8. repeat apply conj; [reflexivity| |unfold lv; lia|right; apply (stops_le 4); [cbn; lia|exact St]].
      intros e E. unfold v_unary in E. apply bind_inv in E as (x & E & M). apply B in E.
      destruct x; try discriminate M; apply mk_has in M as [-> M]; apply R; eauto. }
    destruct (String.eqb_spec s "-") as [->|_].
    { destruct ts as [|t ts].
      - apply (U UNeg); [|exact E1]. intros e te H [q Q] M. apply m_minus; auto. apply (no_number_app te q). now rewrite <- Q.
      - destruct (is_number t) eqn:N; [now apply D|]. apply (U UNeg); [|exact E1]. intros e te H [q Q] M.
        apply m_minus; auto. apply (no_number_app te q). now rewrite <- Q. }
    destruct (String.eqb_spec s "+") as [->|_]; [|now apply D].
    apply (U UPos); [|exact E1]. intros e te H _ M. now apply m_plus. }
  destruct G as (p & c & -> & V & C & R).
  apply (value_loop_eats en pv P HS _ lvl c _ _ p) in E2 as (q & -> & W); auto.
  exists (p ++ q). rewrite <- app_assoc. auto.
Qed.

Definition bstops (l : nat) (ts : list token) : Prop :=
  match ts with TKw k _ :: _ => k = "AND" -> 2 < l | _ => True end.
Lemma bool_loop_stops pb k : forall lvl acc ts v r, bool_loop pb k lvl acc ts = Ok (v, r) -> bstops lvl r.
Proof.
  induction k as [|k IH]; intros lvl acc ts v r H; [discriminate|]. cbn [bool_loop] in H.
  destruct ts as [|t ts]; [injection H as <- <-; exact Logic.I|]. destruct t; try (injection H as <- <-; exact Logic.I).
  destruct (String.eqb k0 "AND" && Nat.leb lvl 2)%bool eqn:A; [apply bind_inv in H as ([b q] & _ & H); now apply IH in H|].
  destruct (String.eqb k0 "OR" && Nat.leb lvl 1)%bool; [apply bind_inv in H as ([b q] & _ & H); now apply IH in H|].
  injection H as <- <-. intros ->. rewrite String.eqb_refl in A. cbn [andb] in A. now apply Nat.leb_gt in A.
Qed.
Lemma bool_loop_eats en pb : (forall l, l <= 3 -> takes (val (expr en (Nat.max 1 l))) (pb l)) ->
  (forall l ts v r, pb l ts = Ok (v, r) -> bstops l r) ->
  forall k lvl c acc ts p, lvl <= 3 -> Nat.max 1 lvl <= c -> val (expr en c) acc p -> 2 <= c \/ bstops 2 ts ->
  eats (val (fun e q => means en (FExpr (Nat.max 1 lvl) e) (p ++ q))) ts (bool_loop pb k lvl acc ts).
Proof.
  intros P HS. induction k as [|k IH]; intros lvl c acc ts p L C A R; [apply eats_err|]. cbn [bool_loop].
  assert (D : eats (val (fun e q => means en (FExpr (Nat.max 1 lvl) e) (p ++ q))) ts (Ok (acc, ts))).
  { apply eats_ok. vals. rewrite app_nil_r. eapply m_tighter; eassumption. }
  destruct ts as [|t ts]; [exact D|]. destruct t; try exact D.
  destruct (String.eqb k0 "AND" && Nat.leb lvl 2)%bool eqn:B1.
  { apply andb_true_iff in B1 as [->%String.eqb_eq LE%Nat.leb_le].
    assert (C2 : 2 <= c) by (destruct R as [R|R]; [exact R|specialize (R eq_refl); lia]).
    apply eats_cons. intros a r E. apply bind_inv in E as ([b r1] & E1 & E2).
    apply (P 3 (le_n _)) in E1 as (q & -> & B).
    apply (IH lvl 2 _ _ (p ++ TKw "AND" txt :: q)) in E2 as (q' & -> & W); auto; [| lia | ].
    - exists (q ++ q'). split; [now rewrite <- app_assoc|]. vals. rewrite <- app_assoc in H. exact H.
    - unfold v_logic. vals. eapply m_and; eauto. eapply m_tighter; eassumption. }
  destruct (String.eqb k0 "OR" && Nat.leb lvl 1)%bool eqn:B2; [|exact D].
  { apply andb_true_iff in B2 as [->%String.eqb_eq LE%Nat.leb_le].
    assert (C2 : 1 <= c) by lia.
    apply eats_cons. intros a r E. apply bind_inv in E as ([b r1] & E1 & E2). pose proof (HS _ _ _ _ E1) as St.
    apply (P 2 ltac:(lia)) in E1 as (q & -> & B).
    apply (IH lvl 1 _ _ (p ++ TKw "OR" txt :: q)) in E2 as (q' & -> & W); auto; [| lia | ].
    - exists (q ++ q'). split; [now rewrite <- app_assoc|]. vals. rewrite <- app_assoc in H. exact H.
    - unfold v_logic. vals. eapply m_or; eauto. eapply m_tighter; eassumption. }
Qed.

(** * Predicates *)
Lemma cmp_cases s op : cmp_sym s = Some (Ok op) ->
  In (op, s) [(BEq, "="); (BNe, "<>"); (BLt, "<"); (BLe, "<="); (BGt, ">"); (BGe, ">=")].
Proof.
  unfold cmp_sym. intro H.
  repeat match goal with H : (if String.eqb ?a ?b then _ else _) = _ |- _ => destruct (String.eqb_spec a b) as [->|_] end;
    try discriminate; injection H as <-; cbn [In]; auto 10.
Qed.
Lemma negate_is neg x e : v_negate neg x = Ok e -> exists y, x = Ok y /\ e = negated neg y.
Proof.
  unfold v_negate. intros (y & E & H)%bind_inv. exists y. split; [exact E|]. destruct neg; [|now injection H as <-].
  now apply mk_has in H as [-> _].
Qed.
Lemma many_form en (F : node -> form) l p : many (fun e ts => means en (F e) ts) l p -> means en (FMany (map F l)) p.
Proof. induction 1; cbn [map]; [now apply m_one|now apply m_more]. Qed.
Lemma many_exprs en l p : many (expr en 1) l p -> means en (FExprs l) p.
Proof. apply (many_form en (FExpr 1)). Qed.
Lemma opt_node_kept x : opt_node x = kept x.
Proof. reflexivity. Qed.
Lemma pred_tail_eats en pe pv pq neg left k ts p tn :
  takes (val (expr en 1)) pe -> takes (val (expr en 5)) pv -> takes (val (query en)) pq ->
  val (expr en 5) left p -> negation neg tn ->
  forall x, eats (val (fun e q => means en (FExpr 4 e) (p ++ tn ++ TKw k x :: q))) ts (pred_tail pe pv pq neg left k ts).
Proof.
  intros E V Q L N x. unfold pred_tail.
  destruct (String.eqb_spec k "BETWEEN") as [->|_].
  { rd. intros e H. apply negate_is in H as (y & H & ->). unbind; get; made. rule m_between. }
  destruct (String.eqb_spec k "IN") as [->|_].
  { rd; intros e H; apply negate_is in H as (y & H & ->); unbind; get; made.
    - match goal with H : many _ _ _ |- _ => apply many_exprs in H end. rule m_in.
    - rule m_in_query. }
  destruct (String.eqb_spec k "LIKE") as [->|_]; [|apply eats_err].
  rd; intros e H; apply negate_is in H as (y & H & ->); unbind; get; made.
  - eapply means_eq; [eapply m_like; eauto; eapply m_clause; eassumption | toks].
  - eapply means_eq; [eapply m_like; eauto; apply m_no_clause | toks].
Qed.
Lemma predicate_eats en pe pv pq left ts p :
  takes (val (expr en 1)) pe -> takes (val (expr en 5)) pv -> takes (val (query en)) pq ->
  val (expr en 5) left p ->
  eats (val (fun e q => means en (FExpr 4 e) (p ++ q))) ts (predicate pe pv pq left ts).
Proof.
  intros E V Q L. unfold predicate.
  assert (D : eats (val (fun e q => means en (FExpr 4 e) (p ++ q))) ts (Ok (left, ts))).
  { apply eats_ok. vals. rewrite app_nil_r. eapply m_tighter; [|eassumption]. lia. }
  destruct ts as [|t ts]; [exact D|]. destruct t; try exact D.
  - destruct (String.eqb_spec k "NOT") as [->|_].
    { destruct ts as [|[] ts]; try apply eats_err. do 2 apply eats_cons.
      eapply eats_weaken; [apply (pred_tail_eats en _ _ _ _ _ _ _ p [TKw "NOT" txt]); auto; constructor|].
      cbn beta. intros a q H. exact H. }
    destruct (String.eqb_spec k "IS") as [->|_].
    { apply eats_cons.
      assert (X : exists neg tn r1, negation neg tn /\ ts = tn ++ r1 /\
        match eat_kw "NOT" ts with Some r1 => (true, r1) | None => (false, ts) end = (neg, r1)).
      { destruct (eat_kw "NOT" ts) eqn:T.
        - apply eat_kw_some in T as [y ->]. exists true, [TKw "NOT" y], l. repeat split; constructor.
        - exists false, [], ts. repeat split; constructor. }
      destruct X as (neg & tn & r1 & N & -> & ->).
      assert (G : eats (val (fun e q => means en (FExpr 4 e) (p ++ TKw "IS" txt :: tn ++ q))) r1
        (match eat_kw "NULL" r1 with
        | Some r2 => Ok (v_negate neg (let* x := left in mk (NUn UIsNull x)), r2)
        | None =>
            let* r2 := need (eat_kw "DISTINCT" r1) in
            let* r3 := need (eat_kw "FROM" r2) in
            let* (b, r4) := pv r3 in
            Ok (v_negate neg (let* x := left in let* y := b in mk (NBin BDistinct x y)), r4)
        end)).
      { rd; intros e H; apply negate_is in H as (y & H & ->); unbind; get; made; [rule m_null|rule m_distinct]. }
      intros a r H. apply G in H as (q & -> & H). exists (tn ++ q). rewrite <- app_assoc. auto. }
    destruct (is_tail_kw k); [|exact D]. apply eats_cons.
    eapply eats_weaken; [apply (pred_tail_eats en _ _ _ _ _ _ _ p []); auto; constructor|].
    cbn beta. intros a q H. exact H.
  - destruct (cmp_sym s) as [op|] eqn:C; [|exact D]. apply eats_orelse.
    + apply eats_cons. rd. unfold v_compare. vals. destruct op as [op|]; [|discriminate].
      match goal with H : Ok _ = Ok _ |- _ => injection H as <- | _ => idtac end.
      apply cmp_cases in C. rewrite app_nil_r.
      match goal with H : match ?x with _ => _ end = Ok ?b |- context [p ++ TSym s :: ?q] =>
        match type of L with val _ _ _ => assert (M : mk (NBin op a0 a1) = Ok b) by (destruct a0; try exact H; destruct a1; discriminate H) end end.
      made. now apply m_compare.
    + destruct ts as [|[] ts]; try apply eats_err. do 2 apply eats_cons. rd. vals. discriminate.
Qed.
Lemma bool_body_stops pb pv pq lvl ts v r : bool_body pb pv pq lvl ts = Ok (v, r) -> bstops lvl r.
Proof. unfold bool_body. intros ([a q] & _ & H)%bind_inv. now apply bool_loop_stops in H. Qed.
Lemma bool_body_eats en pb pv pq : (forall l, l <= 3 -> takes (val (expr en (Nat.max 1 l))) (pb l)) ->
  (forall l ts v r, pb l ts = Ok (v, r) -> bstops l r) -> takes (val (expr en 5)) pv -> takes (val (query en)) pq ->
  forall lvl, lvl <= 3 -> takes (val (expr en (Nat.max 1 lvl))) (bool_body pb pv pq lvl).
Proof.
  intros P HS V Q lvl L ts. unfold bool_body.
  eapply (eats_bind (val (expr en 3))).
  - pose proof (P 3 (le_n _)) as P3. cbn [Nat.max] in P3. pose proof (P 0 ltac:(lia)) as P0. cbn [Nat.max] in P0. eat.
    + rd. unfold v_unary. vals. rewrite app_nil_r.
      match goal with H : match ?x with _ => _ end = Ok _ |- _ =>
        assert (M : mk (NUn UNot x) = Ok b) by (destruct x; try exact H; discriminate H) end.
      made. now apply m_not.
    + eapply eats_bind; [apply V|]. cbn beta. intros a p r E A. cbn beta iota.
      eapply eats_weaken; [apply predicate_eats; eassumption|]. cbn beta. intros x q H e Ee. apply H in Ee.
      eapply m_tighter; [|exact Ee]. lia.
  - cbn beta. intros a p r E A. cbn beta iota. eapply eats_weaken.
    + apply (bool_loop_eats en pb P HS _ lvl 3 a r p); [exact L|lia|exact A|left; lia].
    + auto.
Qed.

(** * Orders and windows *)
Notation sorts en := (fun l ts => means en (FMany (map FSort l)) ts).
Lemma p_sort_eats en pe : takes (val (expr en 1)) pe -> takes (val (fun o ts => means en (FSort o) ts)) (p_sort pe).
Proof. intros E ts. unfold p_sort. rd; unfold v_sort; vals;
  (eapply means_eq; [eapply m_sort; [eassumption|constructor|constructor]|]); first [eexists; reflexivity | toks]. Qed.
#[global] Hint Resolve p_sort_eats : ac.
Lemma many_sorts en l p : many (fun o ts => means en (FSort o) ts) l p -> means en (FMany (map FSort l)) p.
Proof. induction 1; cbn [map]; [now apply m_one|now apply m_more]. Qed.
Lemma p_orderby_eats en pe : takes (val (expr en 1)) pe ->
  takes (opt_val (fun l p => exists x y q, p = TKw "ORDER" x :: TKw "BY" y :: q /\ means en (FMany (map FSort l)) q)) (p_orderby pe).
Proof.
  intros E ts. unfold p_orderby. rd; cbn [opt_val]; [|reflexivity]. vals. rewrite app_nil_r. do 3 eexists. split; [reflexivity|].
  now apply many_sorts.
Qed.
#[global] Hint Resolve p_orderby_eats : ac.
Definition orders_of (o : option (list (order node))) : list (order node) := match o with None => [] | Some l => l end.
Lemma order_means en o p os : opt_val (fun l p => exists x y q, p = TKw "ORDER" x :: TKw "BY" y :: q /\ means en (FMany (map FSort l)) q) o p ->
  seq_opt o = Ok os -> means en (FOrder (match os with None => [] | Some l => l end)) p.
Proof.
  destruct o as [v|]; cbn [opt_val seq_opt].
  - intros H (l & E & G)%bind_inv. injection G as <-. apply H in E as (x & y & q & -> & M). now apply m_order.
  - intros -> G. injection G as <-. constructor.
Qed.
Lemma p_direction_eats : takes (fun d p => exists y, p = [TKw (side d) y]) p_direction.
Proof. intro ts. unfold p_direction. rd; eexists; reflexivity. Qed.
#[global] Hint Resolve p_direction_eats : ac.
Lemma p_bound_eats en pe : takes (val (expr en 1)) pe -> takes (val (fun b ts => means en (FBound b) ts)) (p_bound pe).
Proof.
  intros E ts. unfold p_bound. rd; try match goal with H : exists y, _ |- _ => destruct H as (? & ->) end; vals; cbn [app].
  - apply m_unbounded.
  - apply m_current.
  - rule m_bounded.
Qed.
#[global] Hint Resolve p_bound_eats : ac.
Lemma frame_kw_text k f : frame_kw k = Some f -> k = frame_text f.
Proof.
  unfold frame_kw. intro H.
  repeat match goal with H : (if String.eqb ?a ?b then _ else _) = _ |- _ => destruct (String.eqb_spec a b) as [->|_] end;
    try discriminate; injection H as <-; reflexivity.
Qed.
Definition frame_is en (w : window node) (ts : list token) : Prop := means en (FFrame (w_frame w) (w_start w) (w_end w)) ts.
Lemma p_frame_eats en pe f ts x : takes (val (expr en 1)) pe ->
  eats (val (fun w p => frame_is en w (TKw (frame_text f) x :: p))) ts (p_frame pe f ts).
Proof.
  intros E. unfold p_frame. rd; unfold v_frame, frame_is; vals; cbn [w_frame w_start w_end].
  - match goal with H : seq_opt (Some _) = Ok _ |- _ => cbn [seq_opt] in H; unbind; get end. rule m_frame_between.
  - match goal with H : seq_opt None = Ok _ |- _ => cbn [seq_opt] in H; unbind end. rule m_frame.
Qed.
Lemma frame_ahead_some ts f r : frame_ahead ts = Some (f, r) -> exists x, ts = TKw (frame_text f) x :: r.
Proof.
  destruct ts as [|[] ts]; try discriminate. cbn [frame_ahead]. destruct (frame_kw k) eqn:F; [|discriminate].
  intro H. injection H as <- <-. apply frame_kw_text in F as ->. eauto.
Qed.
Definition part_is en (o : option (result (list node))) (p : list token) : Prop :=
  opt_val (fun l p => means en (FPartition l) p) o p.
Lemma v_winspec_means en n parts ob fr pn pp po pf :
  match n with None => pn = [] | Some i => val name (visit_ident i) pn end ->
  part_is en parts pp ->
  opt_val (fun l p => exists x y q, p = TKw "ORDER" x :: TKw "BY" y :: q /\ means en (FMany (map FSort l)) q) ob po ->
  opt_val (frame_is en) fr pf ->
  val (fun w p => means en (FWindow w) p) (v_winspec n parts ob fr) (pn ++ pp ++ po ++ pf).
Proof.
  intros N P O F w E. unfold v_winspec in E. unbind.
  pose proof (order_means _ _ _ _ O E1) as O'.
  assert (F' : means en (FFrame (w_frame a) (w_start a) (w_end a)) pf).
  { destruct fr as [v|]; cbn [opt_val] in F.
    - now apply F.
    - subst pf. injection E0 as <-. apply m_frame_none. }
  assert (P' : means en (FPartition (match a1 with None => [] | Some l => l end)) pp).
  { destruct parts as [v|]; cbn [seq_opt] in E2; cbn [part_is opt_val] in P.
    - unbind. now apply P.
    - unfold part_is in P. cbn [opt_val] in P. subst pp. unbind. apply m_partition_none. }
  apply m_window; auto. destruct n as [i|].
  - unbind. right. eauto.
  - unbind. auto.
Qed.
Lemma p_winspec_eats en pe : takes (val (expr en 1)) pe -> takes (val (fun w p => means en (FWindow w) p)) (p_winspec pe).
Proof.
  intros E ts. unfold p_winspec.
  eapply (eats_bind (fun n p => match n with None => p = [] | Some i => val name (visit_ident i) p end)).
  { destruct (window_name_ahead ts); rd; [|reflexivity]. rewrite app_nil_r. now destruct H0. }
  cbn beta. intros n pn r En N. cbn beta iota.
  eapply (eats_bind (part_is en)).
  { rd; unfold part_is; cbn [opt_val]; [|reflexivity]. vals. rewrite app_nil_r. apply m_partition. now apply many_exprs. }
  cbn beta. intros parts pp r1 Ep P. cbn beta iota. rd1.
  destruct (frame_ahead r0) as [[f r3]|] eqn:FA.
  - apply frame_ahead_some in FA as [x ->]. apply eats_cons. eapply eats_bind; [apply (p_frame_eats en _ _ _ x); exact E|].
    cbn beta. intros w q r4 Ew W. cbn beta iota. apply eats_ok. rewrite app_nil_r.
    apply v_winspec_means; auto.
  - apply eats_ok. apply v_winspec_means; auto. reflexivity.
Qed.
#[global] Hint Resolve p_winspec_eats : ac.
Lemma p_over_eats en pe : takes (val (expr en 1)) pe ->
  takes (opt_val (fun w p => means en (FOver (Some w)) p)) (p_over pe).
Proof.
  intros E ts. unfold p_over. destruct (eat_kw "OVER" ts) as [r|] eqn:O; [|now apply eats_ok].
  apply eat_kw_some in O as [x ->].
  destruct (eat_sym "(" r) as [r1|] eqn:S.
  - apply eat_sym_some in S as ->. do 2 apply eats_cons. rd. cbn [opt_val]. vals. rule m_over.
  - destruct (p_ident r) as [[i r1]|] eqn:I; [|now apply eats_ok].
    apply p_ident_eats in I as (q & -> & N & _). intros a r E0. injection E0 as <- <-. exists (TKw "OVER" x :: q).
    split; [reflexivity|]. cbn [opt_val]. vals. apply m_over_name. assumption.
Qed.
#[global] Hint Resolve p_over_eats : ac.
Lemma p_filter_eats en pe : takes (val (expr en 1)) pe ->
  takes (opt_val (fun e p => means en (FFilter (kept e)) p)) (p_filter pe).
Proof.
  intros E ts. unfold p_filter. destruct (eat_kw "FILTER" ts) as [r|] eqn:O; [|now apply eats_ok].
  apply eat_kw_some in O as [x ->].
  destruct (eat_sym "(" r) as [r1|] eqn:S; [|now apply eats_ok].
  apply eat_sym_some in S as ->. do 2 apply eats_cons. rd. cbn [opt_val]. vals. rule m_filter.
Qed.
#[global] Hint Resolve p_filter_eats : ac.

(** * Calls *)
Lemma null_treatment_is ts nt r : p_null_treatment ts = (nt, r) -> exists p, ts = p ++ r /\ treatment nt p.
Proof.
  intro H. assert (D : (None, ts) = (nt, r) -> exists p, ts = p ++ r /\ treatment nt p).
  { intro G. injection G as <- <-. exists []. split; [reflexivity|constructor]. }
  unfold p_null_treatment in H. destruct ts as [|[] [|[] ts]]; try now apply D.
  destruct ((String.eqb k "IGNORE" || String.eqb k "RESPECT") && String.eqb k0 "NULLS" && measure_ahead ts)%bool eqn:B;
    [|now apply D].
  apply andb_true_iff in B as [[B ->%String.eqb_eq]%andb_true_iff _]. injection H as <- <-.
  eexists [_; _]. split; [reflexivity|].
  apply orb_true_iff in B as [->%String.eqb_eq| ->%String.eqb_eq]; constructor; eexists; reflexivity.
Qed.
Lemma p_quant_is ts q r : p_quant ts = (q, r) ->
  exists p, ts = p ++ r /\ (q = None /\ p = [] \/ exists k x, In k ["DISTINCT"; "ALL"] /\ q = Some x /\ p = [TKw k x]).
Proof.
  intro H. unfold p_quant in H.
  destruct ts as [|[] ts]; try (injection H as <- <-; exists []; auto; fail).
  destruct (String.eqb_spec k "DISTINCT") as [->|_].
  { injection H as <- <-. eexists [_]. split; [reflexivity|]. right. do 2 eexists. repeat split. cbn [In]. auto. }
  destruct (String.eqb k "ALL" && starts_expr ts)%bool eqn:B; injection H as <- <-; [|exists []; auto].
  apply andb_true_iff in B as [->%String.eqb_eq _].
  eexists [_]. split; [reflexivity|]. right. do 2 eexists. repeat split. cbn [In]. auto.
Qed.
Lemma quant_any p (q : option string) :
  (q = None /\ p = [] \/ exists k x, In k ["DISTINCT"; "ALL"] /\ q = Some x /\ p = [TKw k x]) -> any_quantifier p.
Proof. intros [[_ ->]|(k & x & K & _ & ->)]; now constructor. Qed.
Lemma quant_of p (q : option string) d0 d :
  (q = None /\ p = [] \/ exists k x, In k ["DISTINCT"; "ALL"] /\ q = Some x /\ p = [TKw k x]) ->
  match q with None => Ok d0 | Some t => v_quant t end = Ok d -> quant d0 d p.
Proof.
  intros [[-> ->]|(k & x & K & -> & ->)] H; [injection H as <-; constructor|].
  unfold v_quant in H. destruct (String.eqb_spec x "DISTINCT") as [->|_]; [injection H as <-; now constructor|].
  destruct (String.eqb_spec x "ALL") as [->|_]; [injection H as <-; now constructor|discriminate].
Qed.
