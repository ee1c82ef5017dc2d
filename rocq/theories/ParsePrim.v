(** Facts about the expression parser, part 4: primary expressions. *)
From Coq Require Import String Ascii List ZArith NArith Bool Lia Arith.
From Verif Require Import PyStr StrFacts Types Inference Lexer LexFacts TypeParser TypeFacts TypeRoundTrip
  Functions FunctionFacts Ast Sql Parser Tokens ReadsFacts ParseBase ParseParts ParseExpr.
Import ListNotations.
Open Scope nat_scope.
Open Scope string_scope.
Open Scope list_scope.

(** * Parentheses and rows *)
Lemma p_name_cases t r : (exists i, p_name (t :: r) = Ok (Ok i, r)) \/ exists x, p_name (t :: r) = Err x.
Proof.
  unfold p_name. destruct t as [w| | | | | | | | | | | | ]; cbn [p_ident bind]; eauto.
  destruct (mem w non_reserved); cbn [bind]; eauto.
Qed.
Definition arrow_after (r : list token) : bool :=
  match r with
  | TSym a :: TSym b :: _ => (String.eqb a ")" && String.eqb b "->")%bool
  | _ => false
  end.
Lemma idents_not_lambda rest : forall k tss l r,
  lev rest <= 9 -> Forall (shape 0) tss ->
  p_sep p_name k (commas tss ++ TSym ")" :: rest) = Ok (l, r) -> arrow_after r = false.
Proof.
  intros k tss l r Lr F. revert k l r. induction F as [|ts tss S F IH]; intros k l r E.
  - destruct k; discriminate E.
  - destruct k as [|k]; [discriminate E|]. destruct S as [S1 S2 _ _].
    destruct ts as [|t ts]; [contradiction|].
    destruct (commas_first (t :: ts) tss (TSym ")" :: rest)) as (q & Eq & Hq).
    assert (Hq' : tss = [] /\ q = TSym ")" :: rest
                  \/ q = TSym "," :: commas tss ++ TSym ")" :: rest).
    { destruct tss as [|u tss].
      - left. split; [reflexivity|]. change (commas [t :: ts]) with (t :: ts) in Eq. now apply app_inv_head in Eq.
      - right. rewrite commas_cons, <- app_assoc in Eq. cbn [app] in Eq.
        injection Eq as Eq. now apply app_inv_head in Eq. }
    rewrite Eq in E. cbn [app p_sep] in E.
    destruct (p_name_cases t (ts ++ q)) as [[i P]|[x P]]; rewrite P in E; [|discriminate E].
    cbn [bind] in E. destruct ts as [|u ts]; cbn [app] in E.
    + destruct Hq' as [[-> ->]| ->].
      * cbn [eat_sym String.eqb Ascii.eqb Bool.eqb] in E. injection E as _ <-. cbn [arrow_after].
        destruct rest as [|[ | | | | | | | | | | |b| ] rest]; try reflexivity.
        destruct (String.eqb_spec b "->") as [->|]; [exfalso; revert Lr; vm_compute; lia | apply andb_false_r].
      * rewrite eat_sym_same in E.
        destruct (p_sep p_name k (commas tss ++ TSym ")" :: rest)) as [[l' r']|] eqn:E'; [|discriminate E].
        cbn [bind] in E. injection E as _ <-. eapply IH; eauto.
    + assert (Hu : eat_sym "," (u :: ts ++ q) = None /\ arrow_after (u :: ts ++ q) = false).
      { destruct u as [ | | | | | | | | | | |s| ]; try (split; reflexivity).
        cbn [second mem existsb] in S2. apply andb_true_iff in S2 as [S2 _].
        rewrite !negb_orb in S2. rewrite !andb_true_iff, !negb_true_iff in S2. destruct S2 as (A & B & _).
        cbn [eat_sym arrow_after]. rewrite A, B. split; [reflexivity|].
        destruct (ts ++ q) as [|[ | | | | | | | | | | |b| ] ?]; reflexivity. }
      destruct Hu as [Hu Hu']. rewrite Hu in E. injection E as _ <-. exact Hu'.
Qed.
Lemma lambda_none tss rest :
  Forall (shape 0) tss -> tss <> [] -> lev rest <= 9 ->
  lambda_ahead (commas tss ++ TSym ")" :: rest) = None.
Proof.
  intros F N L. unfold lambda_ahead.
  assert (G : match p_idents (commas tss ++ TSym ")" :: rest) with
    | Ok (l, TSym a :: TSym b :: r) =>
        if (String.eqb a ")" && String.eqb b "->")%bool then Some (l, r) else None
    | _ => None
    end = None).
  { unfold p_idents, sep.
    destruct (p_sep p_name _ _) as [[l r]|] eqn:E; [|reflexivity]. cbn [bind].
    pose proof (idents_not_lambda rest _ tss l r L F E) as A.
    destruct l as [l|]; [|reflexivity]. cbn [bind].
    destruct r as [|[ | | | | | | | | | | |a| ] [|[ | | | | | | | | | | |b| ] r]]; try reflexivity.
    cbn [arrow_after] in A. now rewrite A. }
  destruct F as [|ts tss S F]; [congruence|].
  destruct (commas_first ts tss (TSym ")" :: rest)) as (q & Eq & _). rewrite Eq in *.
  destruct S as [S1 _ _ _]. destruct ts as [|t ts]; [contradiction|]. cbn [app] in *.
  destruct t as [ | | | | | | | | | | |s| ]; try exact G.
  destruct (ts ++ q) as [|[ | | | | | | | | | | |b| ] r]; try exact G.
  cbn [starter mem existsb] in S1. rewrite !orb_true_iff, !String.eqb_eq in S1.
  destruct S1 as [->|[->|[->|S1]]]; try reflexivity. discriminate.
Qed.
Definition Exs (en : env) := Forall2 (fun e ts => exists c, Ex en c e ts).
Lemma Exs_shapes en l tss : Exs en l tss -> Forall (shape 0) tss.
Proof.
  intro H; induction H as [|e ts l tss [c E] H IH]; constructor; auto.
  apply (shape_weak c); [apply E | lia | lia].
Qed.
(** Expressions in parentheses, unless it is just one query. *)
Definition several (en : env) (l : list node) (tss : list (list token)) : Prop :=
  match l, tss with [e], [ts] => exists c, c <= 9 /\ Ex en c e ts | _, _ => True end.
Lemma query_none en l tss n rest : Exs en l tss -> l <> [] -> several en l tss ->
  8 * length (commas tss) + 8 <= n -> unasked en n (commas tss ++ TSym ")" :: rest).
Proof.
  intros F N S Hn. destruct F as [|e ts l tss [c E] F]; [congruence|].
  destruct F as [|e' ts' l tss E' F].
  - destruct S as (c' & L & E'). change (commas [ts]) with ts in *. apply (ex_asks _ _ _ _ E'); auto.
  - rewrite commas_cons in *. rewrite app_length in Hn. cbn [length] in Hn. rewrite <- app_assoc. cbn [app].
    apply (ex_asks _ _ _ _ E); auto. lia.
Qed.
Lemma Exs_nonempty en l tss : Exs en l tss -> l <> [] -> tss <> [].
Proof. intros [] N; [congruence | discriminate]. Qed.
Lemma commas_shape tss : Forall (shape 0) tss -> tss <> [] ->
  match commas tss with t :: _ => starter t = true | [] => False end.
Proof.
  intros F N. destruct F as [|ts tss S F]; [congruence|].
  destruct (commas_first ts tss []) as (q & Eq & _). rewrite app_nil_r in Eq. rewrite Eq.
  destruct S as [S1 _ _ _]. destruct ts; [contradiction | exact S1].
Qed.

Lemma paren_ok en l tss n rest :
  Exs en l tss -> l <> [] -> several en l tss -> 8 * length (commas tss) + 8 <= n -> lev rest <= 9 ->
  prim_head en (p_bool en n 0) (p_value en n 0) (p_query en n) (paren (commas tss) ++ rest)
  = Ok (match l with [x] => Ok x | _ => mk (NRow l) end, rest).
Proof.
  intros H N Sv Hn L. unfold paren. cbn [app]. rewrite <- app_assoc. cbn [app].
  cbn [prim_head String.eqb Ascii.eqb Bool.eqb]. unfold p_paren.
  pose proof (Exs_shapes _ _ _ H) as F. pose proof (Exs_nonempty _ _ _ H N) as N'.
  rewrite lambda_none by assumption.
  pose proof (query_none en l tss n rest H N Sv Hn) as U.
  assert (X : forall (a b : vres), a = b ->
    (if query_ahead (commas tss ++ TSym ")" :: rest) then
       orelse (let* (q, r) := p_query en n (commas tss ++ TSym ")" :: rest) in
               let* r1 := need (eat_sym ")" r) in Ok (q, r1)) (fun _ => a)
     else a) = b).
  { intros a b ->. destruct (query_ahead _) eqn:Q; [|reflexivity].
    destruct U as [U|[->|(q & r & -> & E)]]; [congruence | reflexivity |].
    cbn [bind]. rewrite E. reflexivity. }
  cbv zeta. apply X.
  rewrite (exprs_ok _ _ l tss); [reflexivity | reflexivity | | exact N | reflexivity].
  apply Rx_Rd. apply ex_rxs; auto. lia.
Qed.
Lemma asks_commas en c l tss : Exs en l tss -> l <> [] -> several en l tss -> asks en c (paren (commas tss)).
Proof.
  intros H N S n k Hn Hk _. unfold paren in Hn. cbn [length] in Hn. rewrite app_length in Hn. cbn [length] in Hn.
  do 3 (destruct n as [|n]; [lia|]). apply unasked_paren; [|lia]. apply (query_none en l); auto. lia.
Qed.
Lemma Ex_paren en c e ts : Ex en c e ts -> c <= 9 -> Ex en 9 e (paren ts).
Proof.
  intros E C. apply mk_placed; [lia| | |].
  - split; [apply (shape_paren c); apply E|]. change ts with (commas [ts]).
    apply (asks_commas en 9 [e] [ts]); [constructor; [eauto | constructor] | discriminate | now exists c].
  - apply E.
  - intros n rest Hn L. change ts with (commas [ts]) at 1. rewrite (paren_ok en [e] [ts]); auto.
    + constructor; [eauto | constructor].
    + discriminate.
    + now exists c.
    + unfold paren in Hn. cbn [length] in Hn. rewrite app_length in Hn. change (commas [ts]) with ts.
      cbn [length] in Hn. lia.
Qed.
Lemma shape_parens c tss : Forall (shape 0) tss -> tss <> [] -> shape c (paren (commas tss)).
Proof.
  intros F N. unfold paren. constructor; try reflexivity.
  apply second_starter. now apply commas_shape.
Qed.
Lemma Ex_row en a b l tss :
  Exs en (a :: b :: l) tss -> typed (NRow (a :: b :: l)) ->
  Ex en 9 (NRow (a :: b :: l)) (paren (commas tss)).
Proof.
  intros H T. apply mk_placed; [lia| |exact T|].
  - split; [apply shape_parens; [eapply Exs_shapes; eauto | eapply Exs_nonempty; eauto; discriminate]|].
    apply (asks_commas en 9 (a :: b :: l)); [exact H | discriminate | exact Logic.I].
  - intros n rest Hn L. rewrite (paren_ok en _ tss n rest H); [|discriminate|exact Logic.I| |exact L].
    + cbn [mk]. now rewrite typed_mk.
    + unfold paren in Hn. cbn [length] in Hn. rewrite app_length in Hn. lia.
Qed.

(** * Queries as expressions *)
Lemma starts_query_cases ts : starts_query ts = true ->
  exists k x r, ts = TKw k x :: r /\ (k = "SELECT" \/ k = "WITH" \/ k = "TABLE" \/ k = "VALUES").
Proof.
  destruct ts as [|[k x| | | | | | | | | | | | ] r]; try discriminate. cbn [starts_query]. intro H. exists k, x, r. split; [reflexivity|].
  unfold query_kw, mem in H. cbn [existsb] in H. rewrite !orb_true_iff, !String.eqb_eq in H. intuition discriminate.
Qed.
Lemma query_stop en n a k : query_end k = true ->
  (let* (q, r) := term_loop (p_term en n) (S (length k)) 0 a k in
   let* (ob, r1) := p_orderby (p_bool en (S n) 0) r in
   let* (off, r2) := p_offset r1 in
   let* (lim, r3) := p_limit r2 in
   Ok (v_query_no_with q ob off lim, r3)) = Ok (v_query_no_with a None None None, k).
Proof.
  intro H. destruct k as [|[w x| | | | | | | | | | | | ] k]; try reflexivity.
  cbn [query_end] in H. unfold mem in H. cbn [existsb] in H.
  rewrite negb_true_iff, !orb_false_iff in H. destruct H as (H1 & H2 & H3 & H4 & H5 & H6 & H7 & _).
  cbn [term_loop]. unfold set_kw. rewrite H1, H2, H3. cbn [bind].
  unfold p_orderby. cbn [eat_kw]. rewrite H4. cbn [bind]. unfold p_offset. cbn [eat_kw]. rewrite H5. cbn [bind].
  unfold p_limit. cbn [eat_kw]. rewrite H6, H7. reflexivity.
Qed.
Lemma asks_query en q tq : Rq en q tq -> asks en 10 (paren tq).
Proof.
  intros [F R] n k Hn Q [C|C]; [lia|]. unfold paren in *. cbn [app length] in *. rewrite app_length in Hn.
  cbn [length] in Hn. rewrite <- app_assoc. cbn [app].
  do 3 (destruct n as [|n]; [lia|]). right.
  change (p_query en (S (S (S n))) (TSym "(" :: tq ++ TSym ")" :: k))
    with (query_body (qnw_body (term_body (p_term en n)
           (p_query_primary (p_bool en n 0) (p_primary en n) (p_relation en n) (p_query_no_with en n)) 0)
           (p_bool en (S n) 0)) (p_query en (S (S n))) (TSym "(" :: tq ++ TSym ")" :: k)).
  unfold query_body. cbn [eat_kw]. unfold qnw_body, term_body. cbn [p_query_primary String.eqb Ascii.eqb Bool.eqb].
  specialize (R (S n) (TSym ")" :: k)). pose proof (R ltac:(lia) eq_refl) as R'.
  change (p_query en (S n) (tq ++ TSym ")" :: k))
    with (query_body (p_query_no_with en n) (p_query en n) (tq ++ TSym ")" :: k)) in R'. unfold query_body in R'.
  destruct (eat_kw "WITH" (tq ++ TSym ")" :: k)) as [r|] eqn:W.
  - left. destruct (starts_query_cases _ F) as (w & x & r' & -> & _). cbn [app eat_kw] in *.
    destruct (String.eqb_spec w "WITH") as [->|]; [|discriminate]. rewrite with_unread by lia. reflexivity.
  - right. destruct (p_query_no_with en n (tq ++ TSym ")" :: k)) as [[q' r']|e]; [|discriminate R'].
    cbn [bind] in R'. injection R' as _ ->. cbn [bind]. rewrite eat_sym_same. cbn [need bind].
    rewrite query_stop by exact Q. cbn [bind]. eauto.
Qed.
Lemma Ex_scalar en q tq : Rq en q tq -> typed q -> Ex en 10 q (paren tq).
Proof.
  intros H T. destruct (starts_query_cases _ (rq_first _ _ _ H)) as (k & x & r & E & Hk).
  apply mk_placed; [lia| |exact T|].
  - split; [|now apply (asks_query en q)]. subst tq. unfold paren. cbn [app]. constructor; reflexivity.
  - intros n rest Hn L. unfold paren in *. cbn [app length] in *. rewrite app_length in Hn. cbn [length] in Hn.
    rewrite <- app_assoc. cbn [app]. cbn [prim_head String.eqb Ascii.eqb Bool.eqb]. unfold p_paren.
    assert (query_ahead (tq ++ TSym ")" :: rest) = true /\ lambda_ahead (tq ++ TSym ")" :: rest) = None) as [-> ->].
    { subst tq. destruct Hk as [->|[->|[->| ->]]]; split; reflexivity. }
    rewrite (rq_read _ _ _ H); [|lia|reflexivity]. cbn [bind]. rewrite eat_sym_same. reflexivity.
Qed.

(** * Literals *)
Lemma Ex_number en t e :
  match t with TInt _ | TDec _ => true | _ => false end = true ->
  v_number false t = Some (Ok e) -> typed e -> Ex en 9 e [t].
Proof.
  intros Ht V T. apply mk_head; [|exact T|].
  - destruct t; try discriminate; now apply shape_tok.
  - intros n rest _ _. destruct t; try discriminate; cbn [app prim_head hd]; rewrite V; reflexivity.
Qed.
Lemma Ex_negative en t e :
  match t with TInt _ | TDec _ => true | _ => false end = true ->
  v_number true t = Some (Ok e) -> typed e -> Ex en 9 e [TSym "-"; t].
Proof.
  intros Ht V T. apply mk_head; [|exact T|].
  - split; [constructor; try reflexivity; destruct t; try discriminate; reflexivity | reflexivity].
  - intros n rest _ _. cbn [app prim_head String.eqb Ascii.eqb Bool.eqb]. rewrite V. reflexivity.
Qed.
Lemma Ex_string en t v :
  strip squote t = v -> typed (NLit (LStr v) (TVarchar (Some (zlen v)))) ->
  Ex en 9 (NLit (LStr v) (TVarchar (Some (zlen v)))) [TString t].
Proof.
  intros Ht T. apply mk_head; [now apply shape_tok|exact T|].
  intros n rest _ _. cbn [app prim_head p_string]. rewrite Ht. cbn [bind]. now rewrite typed_mk.
Qed.
Lemma typed_lit l t : check (NLit l t) = Ok (Some t) -> typed (NLit l t).
Proof. intro H. exists t. cbn [wrapped]. rewrite H. reflexivity. Qed.
Lemma Ex_null en : Ex en 9 (NLit LNone unknown) [K "NULL"].
Proof.
  apply mk_head; [apply shape_kw; (reflexivity || discriminate) | now apply typed_lit |].
  intros n rest _ _. reflexivity.
Qed.
Lemma Ex_bool en b : Ex en 9 (NLit (LBool b) (TSimple SBoolean)) [K (if b then "TRUE" else "FALSE")].
Proof.
  destruct b; (apply mk_head;
    [apply shape_kw; (reflexivity || discriminate) | now apply typed_lit | intros n rest _ _; reflexivity]).
Qed.

(** * Names *)

(** A token that is read as the name [n], and is no keyword. *)
Definition name_tok (t : token) (n : string) : Prop :=
  t = TId n \/ exists q, t = TQuoted q /\ strip dquote q = n.
Lemma p_string_none rest : lev rest <= 9 -> p_string rest = None.
Proof. intro L. destruct rest as [|[ | | | | | | | | | | | | ] r]; try reflexivity; cbn in L; lia. Qed.
Lemma measure_none rest : lev rest <= 9 -> measure_ahead rest = false.
Proof. intro L. unfold measure_ahead. now rewrite lev_no_kw. Qed.
Lemma qname_tail_none k rest : lev rest <= 9 -> p_qname_tail k rest = ([], rest).
Proof. intro L. destruct k; [reflexivity|]. cbn [p_qname_tail]. now rewrite lev_no_sym. Qed.

Lemma Ex_field en t n : name_tok t n -> Ex en 9 (NField n TRNone unknown) [t].
Proof.
  intro Ht. apply mk_head.
  - destruct Ht as [->|(q & -> & _)]; now apply shape_tok.
  - exists unknown. reflexivity.
  - intros m rest _ L.
    assert (E : exists i, p_ident (t :: rest) = Ok (i, rest) /\ visit_ident i = Ok n).
    { destruct Ht as [->|(q & -> & <-)]; eexists; split; reflexivity. }
    destruct E as (i & P & V).
    assert (p_name_first en (p_bool en m 0) (p_value en m 0) (t :: rest) = Ok (Ok (NField n TRNone unknown), rest)) as G.
    { unfold p_name_first. rewrite P. cbn [bind]. rewrite measure_none by assumption.
      unfold p_ident_first. rewrite p_string_none by assumption. rewrite lev_no_sym by (auto; reflexivity).
      unfold p_qname. rewrite P. cbn [bind]. rewrite qname_tail_none by assumption.
      cbn [bind]. rewrite lev_no_sym by (auto; reflexivity). rewrite V. reflexivity. }
    destruct Ht as [->|(q & -> & _)]; exact G.
Qed.
Lemma Ex_qualified en t1 n1 t2 n2 :
  name_tok t1 n1 -> name_tok t2 n2 ->
  Ex en 9 (NField n2 (TRStr n1) unknown) [t1; TSym "."; t2].
Proof.
  intros H1 H2. apply (mk_prim en 9); [lia| | |].
  - apply start_placed. destruct H1 as [->|(q & -> & _)], H2 as [->|(q' & -> & _)]; now apply shape_tok.
  - exists unknown. reflexivity.
  - intros m rest _ L. cbn [app].
    assert (E : exists i, forall r, p_ident (t1 :: r) = Ok (i, r) /\ visit_ident i = Ok n1).
    { destruct H1 as [->|(q & -> & <-)]; eexists; split; reflexivity. }
    assert (E2 : exists i, forall r, p_ident (t2 :: r) = Ok (i, r) /\ visit_ident i = Ok n2).
    { destruct H2 as [->|(q & -> & <-)]; eexists; split; reflexivity. }
    destruct E as (i & P). destruct E2 as (j & P2).
    assert (p_name_first en (p_bool en m 0) (p_value en m 0) (t1 :: TSym "." :: t2 :: rest)
            = Ok (Ok (NField n1 TRNone unknown), TSym "." :: t2 :: rest)) as G.
    { unfold p_name_first. destruct (P (TSym "." :: t2 :: rest)) as [-> V]. cbn [bind].
      change (measure_ahead (TSym "." :: t2 :: rest)) with false. cbn iota.
      unfold p_ident_first. change (p_string (TSym "." :: t2 :: rest)) with (@None (result string * list token)).
      change (eat_sym "->" (TSym "." :: t2 :: rest)) with (@None (list token)). cbn iota.
      unfold p_qname. destruct (P (TSym "." :: t2 :: rest)) as [-> _]. cbn [bind].
      generalize (length (TSym "." :: t2 :: rest)) as k. intro k. cbn [p_qname_tail].
      rewrite eat_sym_same. destruct (P2 rest) as [-> _]. rewrite qname_tail_none by assumption.
      cbn [bind]. rewrite lev_no_sym by (auto; reflexivity). rewrite V. reflexivity. }
    change (p_primary en (S m) (t1 :: TSym "." :: t2 :: rest))
      with (prim_body en (p_bool en m 0) (p_value en m 0) (p_query en m) (t1 :: TSym "." :: t2 :: rest)).
    exists (S (S (length rest))). split; [lia|].
    unfold prim_body.
    assert (prim_head en (p_bool en m 0) (p_value en m 0) (p_query en m) (t1 :: TSym "." :: t2 :: rest)
            = Ok (Ok (NField n1 TRNone unknown), TSym "." :: t2 :: rest)) as ->.
    { destruct H1 as [->|(q & -> & _)]; exact G. }
    cbn [bind length post_loop String.eqb Ascii.eqb Bool.eqb]. destruct (P2 rest) as [-> V2].
    cbn [v_dereference bind py_assert]. rewrite V2. reflexivity.
Qed.
