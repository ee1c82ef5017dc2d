(** Everything that is accepted has a reading by the rules of Accepts.v (for C63):
    primary expressions. *)
From Coq Require Import String Ascii List Bool Arith NArith ZArith Lia.
From Verif Require Import PyStr StrFacts Types Inference Lexer TypeParser Functions Ast Sql Walk Parser Tokens NodeFacts
  ParseMore ParseMoreQ Typing PropertiesRules Grammar Accepts AcceptFacts AcceptExpr AcceptCalls.
Import ListNotations.
Open Scope nat_scope.
Open Scope string_scope.
Open Scope list_scope.

Notation prim en t := (fun e p => means en (FExpr 10 e) (t :: p)).

(** * Parentheses *)
Lemma v_lambda_is en vars b tl e :
  (vars = [] /\ tl = []) \/ val name_list (v_names vars) tl -> forall tb, val (expr en 1) b tb ->
  v_lambda vars b = Ok e ->
  exists l x y, ((l = [] /\ tl = []) \/ name_list l tl) /\ each visit_ident vars = Ok l /\ means en (FExpr 1 x) tb /\ subst l x = Ok y /\ e = NLambda l y /\ buildable e.
Proof.
  intros V tb B H. unfold v_lambda, from_generic_expr in H. apply bind_inv in H as (l & L & H). apply bind_inv in H as (x & X & H).
  apply bind_inv in H as (y & Y & H). apply mk_has in H as [-> M]. apply B in X. exists l, x, y. repeat apply conj; auto.
  destruct V as [[-> ->]|V]; [left; injection L as <-; auto|right; now apply V].
Qed.
Lemma lambda_ahead_is ts vars r : lambda_ahead ts = Some (vars, r) -> exists tl, ts = tl ++ TSym ")" :: TSym "->" :: r /\
  ((vars = [] /\ tl = []) \/ val name_list (v_names vars) tl).
Proof.
  assert (D : match p_idents ts with
      | Ok (l, TSym a :: TSym b :: r) =>
          if (String.eqb a ")" && String.eqb b "->")%bool then Some (l, r) else None
      | _ => None
      end = Some (vars, r) -> exists tl, ts = tl ++ TSym ")" :: TSym "->" :: r /\
  ((vars = [] /\ tl = []) \/ val name_list (v_names vars) tl)).
  { destruct (p_idents ts) as [[l q]|] eqn:I; [|discriminate]. apply p_idents_eats in I as (p & -> & N).
    destruct q as [|[] [|[] q]]; try discriminate.
    destruct (String.eqb s ")" && String.eqb s0 "->")%bool eqn:B; [|discriminate].
    apply andb_true_iff in B as [->%String.eqb_eq ->%String.eqb_eq]. intro H. injection H as <- <-. eauto. }
  intro H. destruct ts as [|t ts]; [discriminate|]. destruct t; try now apply D.
  destruct ts as [|t ts]; [discriminate|]. destruct t; try now apply D.
  cbn [lambda_ahead] in H. destruct (String.eqb s ")" && String.eqb s0 "->")%bool eqn:B; [|discriminate].
  apply andb_true_iff in B as [->%String.eqb_eq ->%String.eqb_eq]. injection H as <- <-. exists []. auto.
Qed.
Lemma p_paren_eats en pe pq : takes (val (expr en 1)) pe -> takes (val (query en)) pq ->
  takes (val (prim en (TSym "("))) (p_paren pe pq).
Proof.
  intros E Q ts. unfold p_paren.
  assert (X : eats (val (prim en (TSym "("))) ts
    (let* (l, r) := sep pe ts in
    let* r1 := need (eat_sym ")" r) in
    Ok ((let* l := l in match l with [x] => Ok x | _ => mk (NRow l) end), r1))).
  { rd. intros e Ee. apply bind_inv in Ee as (l0 & L & Ee). get.
    match goal with H : many _ _ _ |- _ => pose proof (many_exprs _ _ _ H) as M; destruct H as [x ? Mx|x ? l1 ? Mx Ml] end.
    - injection Ee as <-. now apply (m_paren en x).
    - destruct l1 as [|y l1]; [inversion Ml|]. made. eapply means_eq; [eapply m_tuple; eauto|toks]. }
  destruct (lambda_ahead ts) as [[vars r]|] eqn:LA.
  - apply lambda_ahead_is in LA as (tl & -> & V). intros a r0 H. apply bind_inv in H as ([b r1] & H & G). injection G as <- <-.
    apply E in H as (tb & -> & B). exists (tl ++ TSym ")" :: TSym "->" :: tb). split; [toks|].
    intros e Ee. eapply v_lambda_is in Ee as (l & x & y & L & _ & B' & S & -> & M); [|exact V|exact B].
    eapply m_lambda; eauto.
  - destruct (query_ahead ts); [|exact X]. apply eats_orelse; [|exact X]. rd. vals. now apply m_subquery.
Qed.

(** * Alternatives with words *)
Lemma v_datetime_is en t p e : v_datetime en t p = Ok e ->
  exists f, names_to_functions en (upper t) = Some f /\ e = now f (match p with None => 3%Z | Some p => p end) /\ buildable e.
Proof.
  unfold v_datetime. intro H. destruct (names_to_functions en (upper t)) as [f|]; [|discriminate]. exists f. split; [reflexivity|].
  destruct f; apply mk_has in H as [-> M]; (split; [reflexivity|exact M]).
Qed.
Lemma p_datetime_eats en k x : In k now_words -> takes (val (prim en (TKw k x))) (p_datetime en x).
Proof.
  intros K ts.
  assert (D : eats (val (prim en (TKw k x))) ts (Ok (v_datetime en x None, ts))).
  { apply eats_ok. intros e H. apply v_datetime_is in H as (f & F & -> & M). apply m_now; auto. now right. }
  unfold p_datetime. destruct ts as [|t ts]; [exact D|]. destruct t; try exact D.
  destruct ts as [|t ts]; [exact D|]. destruct t; try exact D.
  destruct ts as [|t ts]; [exact D|]. destruct t; try exact D.
  destruct (String.eqb s "(" && String.eqb s0 ")")%bool eqn:B; [|exact D].
  apply andb_true_iff in B as [->%String.eqb_eq ->%String.eqb_eq]. do 3 apply eats_cons. apply eats_ok.
  intros e H. apply v_datetime_is in H as (f & F & -> & M). rewrite number_of in *. now apply m_now_precise.
Qed.
Lemma p_normalize_eats en pv x : takes (val (expr en 5)) pv -> takes (val (prim en (TKw "NORMALIZE" x))) (p_normalize pv).
Proof.
  intros V ts. unfold p_normalize. rd1; [|apply eats_err]. rd1.
  destruct (eat_sym "," r) as [r1|] eqn:C.
  - apply eat_sym_some in C as ->. apply eats_cons. destruct r1 as [|[] r1]; try (cbn [bind]; apply eats_err).
    destruct (mem k ["NFD"; "NFC"; "NFKD"; "NFKC"]) eqn:M; [|apply eats_err]. cbn [bind]. apply eats_cons. rd. vals.
    eapply means_eq; [apply (m_normalize en x a0 pre [TSym ","; TKw k txt]); auto; right; exists k, txt; split; [now apply in_mem|reflexivity]|toks].
  - cbn [bind]. rd. vals. eapply means_eq; [eapply (m_normalize en x _ _ []); eauto|toks].
Qed.
Lemma none_after_is {A} (l : list (result A)) e : none_after l = Ok e -> e = NNone /\ Forall (fun x => exists v, x = Ok v) l.
Proof.
  induction l as [|a l IH]; cbn [none_after]; intro H; [injection H as <-; auto|].
  apply bind_inv in H as (v & E & H). apply IH in H as [-> F]. split; [reflexivity|]. constructor; eauto.
Qed.
Ltac nothing := intros ? Hn; apply none_after_is in Hn as [-> Hn];
  repeat match goal with H : Forall _ (_ :: _) |- _ => apply Forall_cons_iff in H as [(? & ->) H] end; get.
Lemma p_position_eats en pv x : takes (val (expr en 5)) pv -> takes (val (prim en (TKw "POSITION" x))) (p_position pv).
Proof. intros V ts. unfold p_position, p_close. rd. nothing. eapply means_eq; [apply (m_position en x x1 pre x0 x2 pre0); auto|toks]. Qed.
Lemma p_trim_rest_eats en pv spec x tp : takes (val (expr en 5)) pv -> trim_part tp -> (spec = false -> tp = []) ->
  takes (val (fun e p => means en (FExpr 10 e) (TKw "TRIM" x :: TSym "(" :: tp ++ p))) (p_trim_rest pv spec).
Proof.
  intros V T S ts. unfold p_trim_rest, p_close. rd; nothing.
  - rule m_trim_from.
  - eapply means_eq; [apply (m_trim_chars en x tp x1 pre x0 x2 pre0); auto|toks].
  - rewrite S by (assumption || reflexivity). eapply means_eq; [apply (m_trim_comma en x x0 pre x1 pre0); auto|toks].
  - rewrite S by (assumption || reflexivity). rule m_trim.
Qed.
Lemma trims_some ts r : Parser.trims ts = Some r -> exists k y, In k trim_words /\ ts = TKw k y :: r.
Proof.
  destruct ts as [|[] ts]; try discriminate. cbn [Parser.trims]. destruct (mem k ["LEADING"; "TRAILING"; "BOTH"]) eqn:M; [|discriminate].
  intro H. injection H as <-. exists k, txt. split; [now apply in_mem|reflexivity].
Qed.
Lemma p_trim_eats en pv x : takes (val (expr en 5)) pv -> takes (val (prim en (TKw "TRIM" x))) (p_trim pv).
Proof.
  intros V ts. unfold p_trim. rd1; [|apply eats_err].
  assert (D : eats (val (fun a p => means en (FExpr 10 a) (TKw "TRIM" x :: TSym "(" :: p))) l (p_trim_rest pv false l)).
  { apply (p_trim_rest_eats en pv false x []); auto. constructor. }
  destruct (Parser.trims l) as [r|] eqn:T; [|exact D]. apply eats_orelse; [|exact D].
  apply trims_some in T as (k & y & K & ->). apply eats_cons.
  apply (p_trim_rest_eats en pv true x [TKw k y]); auto; [now constructor|discriminate].
Qed.
Lemma p_substring_eats en pv x : takes (val (expr en 5)) pv -> takes (val (prim en (TKw "SUBSTRING" x))) (p_substring pv).
Proof. intros V ts. unfold p_substring, p_close. rd; nothing.
  - eapply means_eq; [apply (m_substring_for en x x2 pre x0 x3 pre0 x1 x4 pre1); auto|toks].
  - eapply means_eq; [apply (m_substring en x x1 pre x0 x2 pre0); auto|toks].
Qed.
Lemma p_extract_eats en pv x : takes (val (expr en 5)) pv -> takes (val (prim en (TKw "EXTRACT" x))) (p_extract pv).
Proof.
  intros V ts. unfold p_extract. rd. intros e H. apply bind_inv in H as (n & N & H). revert e H.
  match goal with H : ident_is _ _ |- _ => destruct H as [I _]; apply I in N end. nothing. rule m_extract.
Qed.
Lemma p_grouping_args_eats en k x : forall l ts us, (l = [] /\ us = [] \/ exists ps, us = ps ++ [TSym ","] /\ (Forall (fun i => exists v, visit_ident i = Ok v) l -> paths ps)) ->
  eats (val (fun e p => means en (FExpr 10 e) (TKw "GROUPING" x :: TSym "(" :: us ++ p))) ts (p_grouping_args k l ts).
Proof.
  assert (J : forall ps qs, paths ps -> paths qs -> paths (ps ++ TSym "," :: qs)).
  { intros ps qs P Q. induction P as [l ts H|l ts us H P IH]; [now apply (paths_more l)|].
    rewrite <- app_assoc. apply (paths_more l); auto. }
  assert (A : forall l : list pident, Forall (fun i => exists v, visit_ident i = Ok v) l -> exists ns, v_names l = Ok ns).
  { unfold v_names. induction 1 as [|i l [v Hv] F [ns IH]]; [exists []; reflexivity|]. exists (v :: ns). cbn [each]. rewrite Hv. cbn [bind]. rewrite IH. reflexivity. }
  induction k as [|k IH]; intros l ts us U; [apply eats_err|]. cbn [p_grouping_args].
  eapply eats_bind; [apply p_qname_eats|]. cbn beta. intros n p r -> N. cbn beta iota.
  assert (W : Forall (fun i => exists v, visit_ident i = Ok v) (l ++ n) -> paths (us ++ p)).
  { intros [F1 F2]%Forall_app. destruct (A _ F2) as [ns NS]. apply N in NS. destruct U as [[-> ->]|(ps & -> & P)].
    - eapply paths_one. exact NS.
    - rewrite <- app_assoc. cbn [app]. apply J; [auto|]. eapply paths_one. exact NS. }
  rd.
  - eapply eats_weaken; [apply (IH (l ++ n) _ (us ++ p ++ [TSym ","]))|].
    + right. exists (us ++ p). split; [toks|exact W].
    + cbn beta. intros a q H e Ee. apply H in Ee. eapply means_eq; [exact Ee|toks].
  - intros e H. apply none_after_is in H as [-> H]. rewrite Forall_map in H. apply W in H.
    eapply means_eq; [eapply m_grouping; right; exact H|toks].
Qed.
Lemma p_grouping_eats en x : takes (val (prim en (TKw "GROUPING" x))) p_grouping.
Proof.
  intro ts. unfold p_grouping. rd1; [|apply eats_err]. destruct (eat_sym ")" l) as [r|] eqn:C.
  - apply eat_sym_some in C as ->. apply eats_cons. apply eats_ok. apply val_ok. apply (m_grouping en x []). now left.
  - apply (p_grouping_args_eats en _ x [] l []). auto.
Qed.

(** * What is visited and not kept *)
Fixpoint tame (h : skeleton) : bool :=
  match h with
  | HSym s => mem s [","; ":"; "=>"]
  | HParen a | HMaybe a | HCommas a => tame a
  | HThen a b | HEither a b => (tame a && tame b)%bool
  | _ => true
  end.
Lemma many_skims en h (l : list unit) p : many (fun _ q => means en (FSkim h) q) l p -> means en (FSkim (HCommas h)) p.
Proof. induction 1; [now apply m_skim_one|now apply m_skim_more]. Qed.
Lemma p_shape_eats en pe pq : takes (val (expr en 1)) pe -> takes (val (query en)) pq -> forall h, tame h = true ->
  takes (val (fun _ p => means en (FSkim h) p)) (p_shape pe pq h).
Proof.
  intros E Q. induction h; intros T ts; cbn [tame] in T; cbn [p_shape].
  - rd. apply val_ok. constructor.
  - rd. apply val_ok. constructor.
  - rd. apply val_ok. constructor. now apply in_mem.
  - rd. vals. rewrite app_nil_r. eapply m_skim_expr. eassumption.
  - rd. intros u U. apply bind_inv in U as (t & U & _). rewrite app_nil_r. eapply m_skim_type; eassumption.
  - destruct (p_string ts) as [[s r]|] eqn:S; [|apply eats_err]. apply p_string_some in S as (p & -> & S).
    intros a b H. injection H as <- <-. exists p. split; [reflexivity|]. vals. eapply m_skim_text. eassumption.
  - eapply eats_bind; [apply p_ident_eats|]. cbn beta. intros i p r -> [N _]. cbn beta iota. rd. intros u U.
    apply bind_inv in U as (n & U & _). rewrite app_nil_r. exact (m_skim_name en n p (N n U)).
  - eapply eats_bind; [apply p_qname_eats|]. cbn beta. intros i p r -> N. cbn beta iota. rd. intros u U.
    apply bind_inv in U as (n & U & _). rewrite app_nil_r. exact (m_skim_path en n p (N n U)).
  - rd. vals. rewrite app_nil_r. eapply m_skim_sort. eassumption.
  - rd. vals. rewrite app_nil_r. eapply m_skim_query. eassumption.
  - destruct ts as [|[] ts]; try apply eats_err; match goal with |- context [if ?b then _ else _] => destruct b end; try apply eats_err;
      apply eats_ok, val_ok; constructor.
  - rd1; [|apply eats_err]. eapply eats_bind; [now apply IHh|]. cbn beta. intros v p r -> V. cbn beta iota. rd.
    intros u U. apply V in U. now apply m_skim_paren.
  - apply andb_true_iff in T as [T1 T2]. eapply eats_bind; [now apply IHh1|]. cbn beta. intros v p r -> V. cbn beta iota.
    eapply eats_bind; [now apply IHh2|]. cbn beta. intros w q r' -> W. cbn beta iota. rd. intros u U.
    apply bind_inv in U as (x & X & U). apply V in X. apply W in U. rewrite app_nil_r. now apply m_skim_then.
  - apply eats_orelse; [|apply eats_ok, val_ok; apply m_skim_absent]. eapply eats_weaken; [now apply IHh|].
    intros v p V u U. apply V in U. now apply m_skim_present.
  - apply andb_true_iff in T as [T1 T2]. apply eats_orelse; (eapply eats_weaken; [now first [apply IHh1|apply IHh2]|]);
      intros v p V u U; apply V in U; [now apply m_skim_left|now apply m_skim_right].
  - eapply eats_bind; [apply sep_eats; now apply IHh|]. cbn beta. intros v p r -> V. cbn beta iota. rd. intros u U.
    apply bind_inv in U as (l & L & _). apply V in L. rewrite app_nil_r. eapply many_skims. eassumption.
Qed.
Lemma p_shapes_eats en pe pq : takes (val (expr en 1)) pe -> takes (val (query en)) pq -> forall l, forallb tame l = true ->
  takes (val (fun e p => e = NNone /\ exists h q, In h l /\ means en (FSkim h) q /\ p = q ++ [TSym ")"])) (p_shapes pe pq l).
Proof.
  intros E Q. induction l as [|h l IH]; intros T ts; [apply eats_err|]. cbn [forallb] in T. apply andb_true_iff in T as [T1 T2].
  cbn [p_shapes]. apply eats_orelse.
  - eapply eats_bind; [now apply (p_shape_eats en)|]. cbn beta. intros v p r -> V. cbn beta iota. rd. intros e H.
    apply bind_inv in H as (u & U & H). apply V in U. injection H as <-. split; [reflexivity|]. exists h, p. cbn [In]. auto.
  - eapply eats_weaken; [now apply IH|]. intros v p V e H. apply V in H as (-> & g & q & I & M & ->). split; [reflexivity|].
    exists g, q. cbn [In]. auto.
Qed.
Lemma json_tame k : forallb tame (json_shapes k) = true.
Proof. unfold json_shapes. repeat match goal with |- context [if ?b then _ else _] => destruct b end; reflexivity. Qed.
Lemma p_json_eats en pe pq k x : takes (val (expr en 1)) pe -> takes (val (query en)) pq ->
  takes (val (prim en (TKw k x))) (p_json pe pq k).
Proof.
  intros E Q ts. unfold p_json. rd1; [|apply eats_err]. eapply eats_weaken; [apply (p_shapes_eats en); auto using json_tame|].
  intros v p V e H. apply V in H as (-> & h & q & I & M & ->). eapply m_json; eassumption.
Qed.

(** * Names *)
Lemma p_ident_first_eats en pe i ts r p : takes (val (expr en 1)) pe -> ts = p ++ r -> ident_is i p ->
  eats (val (expr en 10)) ts (p_ident_first en pe i ts r).
Proof.
  intros E -> [I _]. unfold p_ident_first. destruct (p_string r) as [[s r1]|] eqn:S.
  { apply p_string_some in S as (tv & -> & V). intros a b H. injection H as <- <-. exists (p ++ tv). split; [toks|].
    unfold v_type_ctor. vals. now apply m_constructor. }
  destruct (eat_sym "->" r) as [r1|] eqn:A.
  { apply eat_sym_some in A as ->. intros a b H. apply bind_inv in H as ([x q] & H & G). injection G as <- <-.
    apply E in H as (tb & -> & B). exists (p ++ TSym "->" :: tb). split; [toks|].
    intros e Ee. unfold v_lambda, from_generic_expr in Ee. cbn [each] in Ee. unbind. made. get. eapply m_lambda_one; eauto. }
  intros a b H. apply bind_inv in H as ([names q] & H & G).
  apply p_qname_eats in H as (t & T & N).
  destruct (eat_sym "(" q) as [r2|] eqn:O.
  - apply eat_sym_some in O as ->. rewrite T. eapply p_call_eats in G as (pc & -> & C); [|exact E|exact N].
    exists (t ++ TSym "(" :: pc). split; [toks|exact C].
  - injection G as <- <-. exists p. split; [reflexivity|]. vals. now apply m_column.
Qed.
Lemma p_name_first_eats en pe pv : takes (val (expr en 1)) pe -> takes (val (expr en 5)) pv ->
  takes (val (expr en 10)) (p_name_first en pe pv).
Proof.
  intros E V ts a b H. unfold p_name_first in H. apply bind_inv in H as ([i r] & I & H).
  apply p_ident_eats in I as (p & T & I). destruct (measure_ahead r); [discriminate|]. revert a b H.
  change (eats (val (expr en 10)) ts (orelse (p_ident_first en pe i ts r) (fun _ => p_last pv ts))).
  apply eats_orelse; [now apply (p_ident_first_eats en pe i ts r p)|].
  unfold p_last. destruct ts as [|[] ts]; try apply eats_err. destruct (String.eqb_spec k "SUBSTRING") as [->|_]; [|apply eats_err].
  apply eats_cons. now apply p_substring_eats.
Qed.

(** * Primary expressions *)
Lemma bare_fn_is k f : bare_fn k = Some f -> In (k, f) session_words.
Proof.
  unfold bare_fn. intro H.
  repeat match goal with H : (if String.eqb ?a ?b then _ else _) = _ |- _ => destruct (String.eqb_spec a b) as [->|_] end;
    try discriminate; injection H as <-; cbn [In session_words]; auto 10.
Qed.
Lemma p_keyword_eats en pe pv pq k x r v : takes (val (expr en 1)) pe -> takes (val (expr en 5)) pv -> takes (val (query en)) pq ->
  p_keyword en pe pv pq k x r = Some v -> eats (val (prim en (TKw k x))) r v.
Proof.
  intros E V Q H. unfold p_keyword in H.
  Ltac kw H := match type of H with (if String.eqb ?a ?b then _ else _) = _ => destruct (String.eqb_spec a b) as [->|_] end.
  kw H. { injection H as <-. rd. vals. apply m_null_literal. }
  kw H. { injection H as <-. rd. vals. apply m_true. }
  kw H. { injection H as <-. rd. vals. apply m_false. }
  kw H. { injection H as <-. now apply p_case_eats. }
  kw H. { injection H as <-. now apply (p_cast_eats en pe false). }
  kw H. { injection H as <-. rd1; [|apply eats_err]. now apply p_listagg_eats. }
  kw H. { injection H as <-. now apply p_normalize_eats. }
  kw H. { injection H as <-. rd. vals. eapply means_eq; [eapply m_exists; eauto|toks]. }
  destruct (mem k ["CURRENT_TIME"; "CURRENT_TIMESTAMP"; "LOCALTIME"; "LOCALTIMESTAMP"]) eqn:M.
  { injection H as <-. apply p_datetime_eats. now apply in_mem. }
  kw H.
  { injection H as <-. apply eats_ok. intros e Ee. apply v_datetime_is in Ee as (f & F & -> & B). apply m_now; auto. now left. }
  kw H. { injection H as <-. now apply p_trim_eats. }
  kw H. { injection H as <-. now apply p_extract_eats. }
  kw H. { injection H as <-. now apply p_grouping_eats. }
  destruct (mem k json_words); [injection H as <-; now apply p_json_eats|].
  destruct (bare_fn k) as [f|] eqn:B; [|discriminate]. injection H as <-. apply eats_ok. vals. apply m_session; [now apply bare_fn_is|assumption].
Qed.
Lemma p_soft_eats en pe pv k x : takes (val (expr en 1)) pe -> takes (val (expr en 5)) pv ->
  takes (val (prim en (TKw k x))) (p_soft en pe pv k).
Proof.
  intros E V ts. unfold p_soft.
  destruct (String.eqb_spec k "INTERVAL") as [->|_].
  { eapply eats_weaken; [apply p_interval_eats|]. intros v p H e Ee. apply m_interval. now apply H. }
  destruct (String.eqb_spec k "DOUBLE") as [->|_].
  { eat; [|apply eats_err]. destruct (p_string l) as [[s r]|] eqn:S; [|apply eats_err].
    apply p_string_some in S as (ps & -> & S). intros a b H. injection H as <- <-. exists ps. split; [reflexivity|].
    intros e Ee. apply bind_inv in Ee as (? & _ & Ee). discriminate. }
  destruct (String.eqb_spec k "ROW") as [->|_].
  { rd. vals. match goal with H : many _ _ _ |- _ => apply many_exprs in H end. eapply means_eq; [eapply m_row; eauto|toks]. }
  destruct (String.eqb_spec k "ARRAY") as [->|_].
  { rd1; [|apply eats_err]. rd.
    - vals. exfalso. match goal with H : buildable _ |- _ => destruct H as [t H] end. inversion H; match goal with H : Forall2 _ [] _ |- _ => inversion H end.
    - vals. match goal with H : many _ _ _ |- _ => apply many_exprs in H end. eapply means_eq; [eapply m_array; eauto|toks]. }
  destruct (String.eqb_spec k "TRY_CAST") as [->|_]; [now apply (p_cast_eats en pe true)|].
  destruct (String.eqb_spec k "POSITION") as [->|_]; [now apply p_position_eats|].
  destruct (mem k ["RUNNING"; "FINAL"]); [|apply eats_err].
  intros a b H. apply bind_inv in H as ([names q] & H & G). apply p_qname_eats in H as (t & -> & N).
  destruct (eat_sym "(" q) as [r|] eqn:O; [|discriminate]. apply eat_sym_some in O as ->. cbn [need bind] in G.
  apply bind_inv in G as ([c r3] & G & G'). injection G' as <- <-. eapply p_call_eats in G as (p & -> & _); [|exact E|exact N].
  exists (t ++ TSym "(" :: p). split; [toks|]. apply val_err.
Qed.
Lemma v_number_is en b t v : v_number b t = Some v -> val (expr en 10) v ((if b then [TSym "-"] else []) ++ [t]).
Proof.
  intros H e Ee. destruct t; try discriminate; cbn [v_number] in H; injection H as <-; cbn beta.
  - rewrite number_of, int_type_ok in Ee. apply mk_has in Ee as [-> _]. destruct b; cbn [app]; [apply m_minus_integer|apply m_integer].
  - apply bind_inv in Ee as (t & T & Ee). apply mk_has in Ee as [-> M].
    destruct b; cbn [app]; [apply m_minus_decimal|apply m_decimal]; auto using decimal_text_of.
  - apply mk_has in Ee as [-> _]. destruct b; cbn [app]; [apply m_minus_double|apply m_double].
Qed.
Lemma prim_head_eats en pe pv pq : takes (val (expr en 1)) pe -> takes (val (expr en 5)) pv -> takes (val (query en)) pq ->
  takes (val (expr en 10)) (prim_head en pe pv pq).
Proof.
  intros E V Q ts. pose proof (p_name_first_eats en pe pv E V ts) as D. unfold prim_head. destruct ts as [|t ts]; [exact D|]. destruct t; try exact D.
  - destruct (p_keyword en pe pv pq k txt ts) as [v|] eqn:P.
    + apply eats_cons. now apply (p_keyword_eats en pe pv pq).
    + apply eats_orelse; [|exact D]. apply eats_cons. now apply p_soft_eats.
  - destruct (p_string (TString txt :: ts)) as [[s r]|] eqn:S; [|apply eats_err].
    apply p_string_some in S as (p & -> & S). intros a b H. injection H as <- <-. exists p. split; [reflexivity|]. vals. now apply m_string.
  - destruct (p_string (TUniString txt :: ts)) as [[s r]|] eqn:S; [|apply eats_err].
    apply p_string_some in S as (p & -> & S). intros a b H. injection H as <- <-. exists p. split; [reflexivity|]. vals. now apply m_string.
  - apply eats_cons. apply eats_ok. apply val_ok. apply m_binary.
  - cbn [hd]. destruct (v_number false (TInt txt)) as [v|] eqn:N; [|apply eats_err]. apply eats_cons, eats_ok. now apply (v_number_is en false).
  - cbn [hd]. destruct (v_number false (TDec txt)) as [v|] eqn:N; [|apply eats_err]. apply eats_cons, eats_ok. now apply (v_number_is en false).
  - cbn [hd]. destruct (v_number false (TDbl txt)) as [v|] eqn:N; [|apply eats_err]. apply eats_cons, eats_ok. now apply (v_number_is en false).
  - destruct (String.eqb_spec s "-") as [->|_].
    { destruct ts as [|t ts]; [apply eats_err|]. destruct (v_number true t) as [v|] eqn:N; [|apply eats_err].
      do 2 apply eats_cons. apply eats_ok. now apply (v_number_is en true). }
    destruct (String.eqb_spec s "(") as [->|_]; [apply eats_cons; now apply p_paren_eats|].
    destruct (String.eqb s "?"); [|apply eats_err]. apply eats_cons, eats_ok. apply val_err.
Qed.
Lemma v_dereference_is en b i tb tn : val (expr en 10) b tb -> ident_is i tn ->
  val (expr en 10) (v_dereference b i) (tb ++ TSym "." :: tn).
Proof.
  intros B [I _] e Ee. unfold v_dereference in Ee. apply bind_inv in Ee as (x & X & Ee). apply B in X. clear B.
  assert (G : forall r, (let* f := visit_ident i in mk (NField f r unknown)) = Ok e -> exists n, name n tn /\ e = NField n r unknown /\ buildable e).
  { intros r H. apply bind_inv in H as (n & N & H). apply I in N. apply mk_has in H as [-> M]. eauto. }
  assert (W : is_field x = false -> x <> NNone -> (let* f := visit_ident i in mk (NField f (TRVal x) unknown)) = Ok e ->
    means en (FExpr 10 e) (tb ++ TSym "." :: tn)).
  { intros F N H. apply G in H as (n & Nn & -> & M). now apply m_dot_value. }
  destruct x; try (apply W; [reflexivity|discriminate|exact Ee]).
  - apply G in Ee as (n & N & -> & _). now apply m_dot_nothing.
  - match goal with H : means _ (FExpr 10 (NField ?a ?b ?c)) _ |- _ => rename b into r, a into f end.
    apply bind_inv in Ee as (u & U & Ee). apply G in Ee as (n & N & -> & _).
    eapply m_dot_column; eauto. destruct r as [|[]|]; try discriminate; auto.
Qed.
Lemma post_loop_eats en pv : takes (val (expr en 5)) pv -> forall k acc ts p, val (expr en 10) acc p ->
  eats (val (fun e q => means en (FExpr 10 e) (p ++ q))) ts (post_loop pv k acc ts).
Proof.
  intros V. induction k as [|k IH]; intros acc ts p A; [apply eats_err|]. cbn [post_loop].
  assert (D : eats (val (fun e q => means en (FExpr 10 e) (p ++ q))) ts (Ok (acc, ts))).
  { apply eats_ok. intros e Ee. rewrite app_nil_r. now apply A. }
  destruct ts as [|t ts]; [exact D|]. destruct t; try exact D.
  destruct (String.eqb_spec s "[") as [->|_].
  { apply eats_cons. rd. eapply eats_weaken; [apply (IH _ _ (p ++ TSym "[" :: pre ++ [TSym "]"]))|].
    - vals. now apply m_subscript.
    - cbn beta. intros a' q H' e Ee. apply H' in Ee. eapply means_eq; [exact Ee|toks]. }
  destruct (String.eqb_spec s ".") as [->|_]; [|exact D].
  destruct (p_ident ts) as [[i r]|] eqn:I; [|exact D]. apply p_ident_eats in I as (tn & -> & I).
  intros a b H. eapply IH in H as (q & -> & H); [|apply (v_dereference_is en); [exact A|exact I]].
  exists (TSym "." :: tn ++ q). split; [toks|]. intros e Ee. apply H in Ee. eapply means_eq; [exact Ee|toks].
Qed.
Lemma prim_body_eats en pe pv pq : takes (val (expr en 1)) pe -> takes (val (expr en 5)) pv -> takes (val (query en)) pq ->
  takes (val (expr en 10)) (prim_body en pe pv pq).
Proof.
  intros E V Q ts. unfold prim_body. eapply eats_bind; [now apply prim_head_eats|]. cbn beta. intros a p r -> A. cbn beta iota.
  now apply post_loop_eats.
Qed.
