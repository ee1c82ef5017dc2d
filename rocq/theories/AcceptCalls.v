(** Everything that is accepted has a reading by the rules of Accepts.v (for C63):
    calls and primary expressions. *)
From Coq Require Import String Ascii List Bool Arith NArith ZArith Lia.
From Verif Require Import PyStr StrFacts Types Inference Lexer TypeParser Functions Ast Sql Walk Parser Tokens NodeFacts
  ParseMore ParseMoreQ Typing PropertiesRules Grammar Accepts AcceptFacts AcceptExpr.
Import ListNotations.
Open Scope nat_scope.
Open Scope string_scope.
Open Scope list_scope.

(** * Calls *)
Definition has_part {A} (o : option A) : bool := match o with Some _ => true | None => false end.
Lemma from_args_is f args kw fo e : from_args f args kw fo = Ok e ->
  (kw = true -> is_aggregate f = true) /\ (f = FFromUnixtime -> length args = 2 \/ length args = 3) /\
  e = NFunc f (arranged f args) fo /\ buildable e.
Proof.
  unfold from_args. intros (u & A & H)%bind_inv.
  assert (K : kw = true -> is_aggregate f = true).
  { intros ->. unfold py_assert in A. destruct (is_aggregate f); [reflexivity|discriminate]. }
  split; [exact K|]. clear A K.
  match type of H with (if ?b then _ else _) = _ => destruct b; [discriminate|] end.
  assert (D : mk (NFunc f args fo) = Ok e -> (f <> FApproxPercentile \/ length args <> 3) ->
    e = NFunc f (arranged f args) fo /\ buildable e).
  { intros M N. apply mk_has in M as [-> M]. replace (arranged f args) with args; [auto|].
    unfold arranged. destruct f; try reflexivity. destruct N as [N|N]; [congruence|].
    destruct args as [|x1 [|x2 [|x3 [|x4 args]]]]; try reflexivity. cbn [length] in N. congruence. }
  destruct (match f with FFromUnixtime => true | FApproxPercentile => true | _ => false end) eqn:B.
  - destruct f; try discriminate B.
    + split; [discriminate|].
      destruct args as [|x1 [|x2 [|x3 [|x4 args]]]]; try (apply D; [exact H|right; cbn [length]; lia]).
      apply mk_has in H as [-> M]. auto.
    + destruct args as [|x1 [|x2 [|x3 [|x4 args]]]]; try discriminate H;
        (split; [cbn [length]; auto|]); apply D; auto; left; discriminate.
  - split; [intros ->; discriminate B|]. apply D; [destruct f; try exact H; discriminate B|].
    left. intros ->. discriminate B.
Qed.
Lemma v_call_is en names t c e : val path (v_names names) t -> v_call en names c = Ok e ->
  exists n f w ob fi args, name n t /\ names_to_functions en (upper n) = Some f /\
    seq_opt (c_over c) = Ok w /\ seq_opt (c_sorts c) = Ok ob /\ seq_opt (c_filter c) = Ok fi /\ c_args c = Ok args /\
    (has_part (c_over c) || has_part (c_sorts c) || has_part (c_filter c) || has_part (c_null c) = true -> is_aggregate f = true)%bool /\
    (f = FFromUnixtime -> length args = 2 \/ length args = 3) /\
    e = NFunc f (arranged f args) (mkFopts (match ob with None => [] | Some l => l end)
          (match fi with None => None | Some x => kept x end) w (ignores (c_null c))) /\ buildable e.
Proof.
  intros T H. unfold v_call in H. apply bind_inv in H as (ns & N & H). apply T in N.
  destruct ns as [|n [|m ns]]; try discriminate H. apply path_single in N.
  destruct (names_to_functions en (upper n)) as [f|] eqn:F; [|discriminate].
  apply bind_inv in H as (w & W & H). apply bind_inv in H as (ob & O & H). apply bind_inv in H as (fi & I & H).
  apply bind_inv in H as (args & A & H). apply from_args_is in H as (K & U & E & M).
  exists n, f, w, ob, fi, args. repeat apply conj; auto.
  - destruct (c_over c); cbn [seq_opt]; [|exact W]. now apply bind_inv in W as (? & _ & W).
  - intro P. apply K. apply orb_true_iff in P as [P|P]; [apply orb_true_iff in P as [P|P]; [apply orb_true_iff in P as [P|P]|]|].
    + destruct (c_over c); [|discriminate]. apply bind_inv in W as (? & _ & W). apply bind_inv in W as (? & _ & W).
      injection W as <-. reflexivity.
    + destruct (c_sorts c); [|discriminate]. cbn [seq_opt] in O. apply bind_inv in O as (? & _ & O). injection O as <-.
      now destruct w.
    + destruct (c_filter c); [|discriminate]. cbn [seq_opt] in I. apply bind_inv in I as (? & _ & I). injection I as <-.
      now destruct w, ob.
    + destruct (c_null c); [|discriminate]. now destruct w, ob, fi.
Qed.
Lemma over_means en o p w : opt_val (fun w p => means en (FOver (Some w)) p) o p -> seq_opt o = Ok w -> means en (FOver w) p.
Proof.
  destruct o as [v|]; cbn [opt_val seq_opt].
  - intros H (l & E & G)%bind_inv. injection G as <-. now apply H.
  - intros -> G. injection G as <-. constructor.
Qed.
Lemma filter_means en o p x : opt_val (fun e p => means en (FFilter (kept e)) p) o p -> seq_opt o = Ok x ->
  means en (FFilter (match x with None => None | Some x => kept x end)) p.
Proof.
  destruct o as [v|]; cbn [opt_val seq_opt].
  - intros H (l & E & G)%bind_inv. injection G as <-. now apply H.
  - intros -> G. injection G as <-. constructor.
Qed.
Lemma part_empty {A} (Q : A -> list token -> Prop) o p : opt_val Q o p -> p <> [] -> has_part o = true.
Proof. destruct o; [reflexivity|]. cbn [opt_val]. congruence. Qed.
Lemma star_ahead_is ts s r : star_ahead ts = Some (s, r) -> exists p, ts = p ++ TSym ")" :: r /\
  val (fun x p => exists t, x = NStar t unknown /\
     ((t = TRNone /\ p = [TSym "*"]) \/ (exists a ta, name a ta /\ t = TRStr a /\ p = ta ++ [TSym "."; TSym "*"]))) s p.
Proof.
  assert (D : match p_ident ts with
      | Ok (i, TSym d :: TSym a :: TSym b :: r) =>
          if (String.eqb d "." && String.eqb a "*" && String.eqb b ")")%bool
          then Some ((let* l := visit_ident i in mk (NStar (TRStr l) unknown)), r) else None
      | _ => None
      end = Some (s, r) -> exists p, ts = p ++ TSym ")" :: r /\
      val (fun x p => exists t, x = NStar t unknown /\
     ((t = TRNone /\ p = [TSym "*"]) \/ (exists a ta, name a ta /\ t = TRStr a /\ p = ta ++ [TSym "."; TSym "*"]))) s p).
  { destruct (p_ident ts) as [[i l]|] eqn:I; [|discriminate]. apply p_ident_eats in I as (q & -> & N & _).
    destruct l as [|[] [|[] [|[] l]]]; try discriminate.
    destruct (String.eqb s0 "." && String.eqb s1 "*" && String.eqb s2 ")")%bool eqn:B; [|discriminate].
    apply andb_true_iff in B as [[->%String.eqb_eq ->%String.eqb_eq]%andb_true_iff ->%String.eqb_eq].
    intro H. injection H as <- <-. exists (q ++ [TSym "."; TSym "*"]). split; [now rewrite <- app_assoc|].
    vals. eexists. split; [reflexivity|]. right. eauto. }
  intro H. destruct ts as [|t ts]; [discriminate|]. destruct t; try now apply D.
  destruct ts as [|t ts]; [discriminate|]. destruct t; try now apply D.
  cbn [star_ahead] in H. destruct (String.eqb s0 "*" && String.eqb s1 ")")%bool eqn:B; [|discriminate].
  apply andb_true_iff in B as [->%String.eqb_eq ->%String.eqb_eq]. injection H as <- <-.
  exists [TSym "*"]. split; [reflexivity|]. intros x E. exists TRNone. split; [|auto]. apply mk_has in E as [-> _]. reflexivity.
Qed.
Notation ordering en := (fun l p => exists x y q, p = TKw "ORDER" x :: TKw "BY" y :: q /\ means en (FMany (map FSort l)) q).
Notation filtering en := (fun e p => means en (FFilter (kept e)) p).
Notation windowed en := (fun w p => means en (FOver (Some w)) p).
Lemma star_call en names t ov fi s ts tf tw : val path (v_names names) t ->
  val (fun x p => exists t, x = NStar t unknown /\
     ((t = TRNone /\ p = [TSym "*"]) \/ (exists a ta, name a ta /\ t = TRStr a /\ p = ta ++ [TSym "."; TSym "*"]))) s ts ->
  opt_val (filtering en) fi tf -> opt_val (windowed en) ov tw ->
  val (expr en 10) (v_call en names (mkCall ov None fi None (let* x := s in Ok [x]))) (t ++ TSym "(" :: ts ++ TSym ")" :: tf ++ tw).
Proof.
  intros T S FI OV e Ee. eapply v_call_is in Ee as (n & f & w & ob & fl & args & N & F & W & O & I & A & K & U & -> & M); [|exact T].
  cbn [c_over c_sorts c_filter c_args c_null seq_opt has_part] in *. injection O as <-.
  apply bind_inv in A as (x & A & B). injection B as <-. apply S in A as (st & -> & St).
  assert (X : f <> FFromUnixtime) by (intro X; apply U in X; cbn [length] in X; lia).
  replace (arranged f [NStar st unknown]) with [NStar st unknown] in * by (unfold arranged; destruct f; reflexivity).
  eapply m_call_star; eauto using filter_means, over_means.
  intro Z. apply K. destruct ov; [reflexivity|]. destruct fi; [reflexivity|]. cbn [opt_val] in *. subst. now destruct Z.
Qed.
Lemma plain_call en names t ov ob fi nt args ta tob tf tn tw : val path (v_names names) t ->
  val (fun l p => means en (FArgs l) p) args ta ->
  opt_val (ordering en) ob tob -> opt_val (filtering en) fi tf -> treatment nt tn -> opt_val (windowed en) ov tw ->
  val (expr en 10) (v_call en names (mkCall ov ob fi nt args)) (t ++ TSym "(" :: ta ++ tob ++ TSym ")" :: tf ++ tn ++ tw).
Proof.
  intros T A OB FI NT OV e Ee.
  eapply v_call_is in Ee as (n & f & w & o & fl & l & N & F & W & O & I & L & K & U & -> & M); [|exact T].
  cbn [c_over c_sorts c_filter c_args c_null] in *. apply A in L.
  eapply m_call; eauto using filter_means, over_means, order_means.
  intro Z. apply K. destruct ov; [reflexivity|]. destruct ob; [reflexivity|]. destruct fi; [reflexivity|].
  destruct nt; [reflexivity|]. cbn [opt_val] in *. inversion NT. subst. now destruct Z.
Qed.
Lemma p_call_eats en pe names t ts : takes (val (expr en 1)) pe -> val path (v_names names) t ->
  eats (val (fun e p => means en (FExpr 10 e) (t ++ TSym "(" :: p))) ts (p_call en pe names ts).
Proof.
  intros E T. unfold p_call.
  destruct (star_ahead ts) as [[s r]|] eqn:S.
  - apply star_ahead_is in S as (p & -> & S). intros a r0 H.
    assert (G : eats (val (fun e q => means en (FExpr 10 e) (t ++ TSym "(" :: p ++ TSym ")" :: q))) r
      (let* (fi, r1) := p_filter pe r in let* (ov, r2) := p_over pe r1 in
       Ok (v_call en names (mkCall ov None fi None (let* x := s in Ok [x])), r2))).
    { clear H. rd. intros e Ee. rewrite app_nil_r.
      match goal with F : opt_val (filtering en) _ _, O : opt_val (windowed en) _ _ |- _ => exact (star_call _ _ _ _ _ _ _ _ _ T S F O e Ee) end. }
    apply G in H as (q & -> & H). exists (p ++ TSym ")" :: q). split; [toks|exact H].
  - eapply (eats_bind (val (fun l p => means en (FArgs l) p))).
    { destruct (no_args_ahead ts).
      - apply eats_ok. apply val_ok. constructor.
      - destruct (p_quant ts) as [q r] eqn:Q. apply p_quant_is in Q as (p & -> & Q). apply quant_any in Q.
        intros a r0 H. apply (sep_eats _ _ E) in H as (ta & -> & H). exists (p ++ ta). split; [toks|].
        intros l L. apply m_args; [exact Q|]. apply many_exprs. now apply H. }
    cbn beta. intros args ta r -> A. cbn beta iota. rd.
    match goal with |- context [p_null_treatment ?x] => destruct (p_null_treatment x) as [nt r5] eqn:NT end.
    apply null_treatment_is in NT as (tn & -> & NT).
    intros b s H. assert (G : eats (fun ov p => opt_val (windowed en) ov p) r5 (p_over pe r5)) by now apply p_over_eats.
    apply bind_inv in H as ([ov r6] & H & H'). injection H' as <- <-. apply G in H as (tw & -> & OV).
    exists (tn ++ tw). split; [toks|]. intros e Ee. 
    match goal with O : opt_val (ordering en) _ _, F : opt_val (filtering en) _ _ |- _ =>
      pose proof (plain_call _ _ _ _ _ _ _ _ _ _ _ _ _ T A O F NT OV e Ee) as M end.
    eapply means_eq; [exact M|toks].
Qed.

(** * LISTAGG, CASE, CAST *)
Lemma p_overflow_eats x y : takes (val (fun o p => on_overflow o (TKw "ON" x :: TKw "OVERFLOW" y :: p))) p_overflow.
Proof.
  intro ts. unfold p_overflow. eat; [rd; apply val_ok; constructor|].
  rd1; [|apply eats_err].
  match goal with |- eats _ ?l (let '(_, _) := match p_string ?l with _ => _ end in _) => rename l into r end.
  assert (X : exists f tf r1, match p_string r with Some sr => sr | None => (Ok "...", r) end = (f, r1) /\
    r = tf ++ r1 /\ val filled f tf).
  { destruct (p_string r) as [[f r1]|] eqn:P.
    - apply p_string_some in P as (tf & -> & V). exists f, tf, r1. repeat split. intros v H. constructor. now apply V.
    - exists (Ok "..."), [], r. repeat split. apply val_ok. constructor. }
  destruct X as (f & tf & r1 & -> & -> & V).
  match goal with |- eats ?P _ _ => assert (G : eats (fun a p => P a (tf ++ p)) r1
      (let* (w, r2) := match eat_kw "WITH" r1 with
                      | Some r2 => Ok (true, r2)
                      | None => let* r2 := need (eat_kw "WITHOUT" r1) in Ok (false, r2)
                      end in
      let* r3 := need (eat_kw "COUNT" r2) in
      Ok ((let* s := f in Ok (Some (w, s))), r3))) end.
  { cbn beta. rd; vals; [apply (ovf_truncate _ _ _ _ _ true)|apply (ovf_truncate _ _ _ _ _ false)]; assumption. }
  intros a b H. apply G in H as (q & -> & H). exists (tf ++ q). split; [toks|exact H].
Qed.
Lemma p_listagg_eats en pe x : takes (val (expr en 1)) pe ->
  takes (val (fun e p => means en (FExpr 10 e) (TKw "LISTAGG" x :: TSym "(" :: p))) (p_listagg pe).
Proof.
  intros E ts. unfold p_listagg. destruct (p_quant ts) as [q r] eqn:Q. apply p_quant_is in Q as (p & -> & Q). apply quant_any in Q.
  intros a r0 H.
  apply bind_inv in H as ([e r1] & H1 & H). apply E in H1 as (te & -> & TE).
  apply bind_inv in H as ([sp r2] & H1 & H).
  assert (S : exists tsp, r1 = tsp ++ r2 /\ forall s, seq_opt sp = Ok s -> separated (match s with None => " " | Some s => s end) tsp).
  { destruct (eat_sym "," r1) as [r3|] eqn:C.
    - apply eat_sym_some in C as ->. destruct (p_string r3) as [[s r4]|] eqn:PS; [|discriminate]. injection H1 as <- <-.
      apply p_string_some in PS as (tv & -> & V). exists (TSym "," :: tv). split; [reflexivity|].
      intros s0 G. cbn [seq_opt] in G. unbind. constructor. now apply V.
    - injection H1 as <- <-. exists []. split; [reflexivity|]. intros s G. injection G as <-. constructor. }
  destruct S as (tsp & -> & S). clear H1.
  apply bind_inv in H as ([ov r3] & H1 & H).
  assert (O : exists tov, r2 = tov ++ r3 /\ forall o, seq_opt ov = Ok o -> on_overflow (match o with None => None | Some f => f end) tov).
  { destruct (eat_kw "ON" r2) as [r4|] eqn:C.
    - apply eat_kw_some in C as [y ->]. destruct (eat_kw "OVERFLOW" r4) as [r5|] eqn:C2; [|discriminate].
      apply eat_kw_some in C2 as [z ->]. cbn [need bind] in H1. apply bind_inv in H1 as ([o r6] & H1 & G). injection G as <- <-.
      apply (p_overflow_eats y z) in H1 as (q' & -> & V). exists (TKw "ON" y :: TKw "OVERFLOW" z :: q'). split; [reflexivity|].
      intros o' G. cbn [seq_opt] in G. unbind. now apply V.
    - injection H1 as <- <-. exists []. split; [reflexivity|]. intros s G. injection G as <-. constructor. }
  destruct O as (tov & -> & O). clear H1.
  assert (G : eats (val (fun b s => means en (FExpr 10 b) (TKw "LISTAGG" x :: TSym "(" :: p ++ te ++ tsp ++ tov ++ s))) r3
    (let* r4 := need (eat_sym ")" r3) in
  let* r5 := need (eat_kw "WITHIN" r4) in
  let* r6 := need (eat_kw "GROUP" r5) in
  let* r7 := need (eat_sym "(" r6) in
  let* (ob, r8) := p_orderby pe r7 in
  match ob with
  | None => Err SyntaxErr
  | Some l => let* r9 := need (eat_sym ")" r8) in Ok (v_listagg sp ov l e, r9)
  end)).
  { clear H. rd. destruct a0 as [l0|]; [|apply eats_err]. rd. cbn [opt_val] in *. unfold v_listagg. intros b Eb. unbind. made. get.
    match goal with H : exists x, _ |- _ => destruct H as (y & z & tl & -> & ?) end.
    eapply means_eq; [eapply m_listagg; eauto|toks]. }
  apply G in H as (s & -> & H). exists (p ++ te ++ tsp ++ tov ++ s). split; [toks|exact H].
Qed.
Lemma v_when_is c x a : v_when c x = Ok a -> c = Ok (fst a) /\ x = Ok (snd a).
Proof. unfold v_when. intro H. unbind. auto. Qed.
Lemma p_whens_eats en pe : takes (val (expr en 1)) pe -> forall k, takes (val (fun l p => means en (FWhens l) p)) (p_whens pe k).
Proof.
  intros E. induction k as [|k IH]; intro ts; [apply eats_err|]. cbn [p_whens]. rd1; [|apply eats_err]. rd1. rd1; [|apply eats_err]. rd1.
  match goal with |- eats _ ?r (match eat_kw _ ?r with _ => _ end) => destruct (eat_kw "WHEN" r) end.
  - eapply eats_bind; [apply IH|]. cbn beta. intros ll p rr Er L. cbn beta iota. apply eats_ok.
    intros b Eb. apply bind_inv in Eb as ([u v] & W & Eb). apply bind_inv in Eb as (l' & L' & Eb). injection Eb as <-.
    apply v_when_is in W as [W1 W2]. cbn [fst snd] in *. get. rule m_when.
  - apply eats_ok.
    intros b Eb. apply bind_inv in Eb as ([u v] & W & Eb). injection Eb as <-.
    apply v_when_is in W as [W1 W2]. cbn [fst snd] in *. get. rule m_when_one.
Qed.
Lemma p_case_eats en pe x : takes (val (expr en 1)) pe ->
  takes (val (fun e p => means en (FExpr 10 e) (TKw "CASE" x :: p))) (p_case pe).
Proof.
  intros E ts. unfold p_case.
  eapply (eats_bind (opt_val (fun e p => means en (FOperand (kept e)) p))).
  { destruct (eat_kw "WHEN" ts); rd; cbn [opt_val]; [reflexivity|]. vals. rewrite app_nil_r. now apply m_operand. }
  cbn beta. intros o po r _ O. cbn beta iota.
  eapply eats_bind; [apply (p_whens_eats en); exact E|]. cbn beta. intros ws pw r1 _ W. cbn beta iota.
  eapply (eats_bind (opt_val (fun e p => means en (FElse (Some e)) p))).
  { rd; cbn [opt_val]; [|reflexivity]. vals. rewrite app_nil_r. now apply m_else. }
  cbn beta. intros el pl r2 _ L. cbn beta iota. rd. unfold v_case. intros e Ee.
  apply bind_inv in Ee as (ws' & E1 & Ee). apply bind_inv in Ee as (o' & E2 & Ee). apply bind_inv in Ee as (l' & E3 & Ee). made. apply W in E1.
  apply (m_case en x _ po _ pw _ pl); [|exact E1| |assumption].
  - destruct o as [v|]; cbn [opt_val seq_opt] in *; unbind; [now apply O|constructor].
  - destruct el as [v|]; cbn [opt_val seq_opt] in *; unbind; [now apply L|constructor].
Qed.
Lemma p_cast_eats en pe (try_ : bool) x : takes (val (expr en 1)) pe ->
  takes (val (fun e p => means en (FExpr 10 e) (TKw (if try_ then "TRY_CAST" else "CAST") x :: p))) (p_cast pe try_).
Proof.
  intros E ts. unfold p_cast. rd. unfold v_cast. intros b Eb. unbind. get.
  destruct (canon a2) as [d|] eqn:C; [|discriminate]. made.
  eapply means_eq; [eapply m_cast; eauto; eexists _, _; eauto|toks].
Qed.
