(** Property theorems C27: set operations. *)
From Coq Require Import String Ascii List Bool ZArith NArith Arith Lia.
From Verif Require Import PyStr StrFacts Printer Types Inference Lexer LexFacts TypeParser Functions Ast Sql
  Tokens SqlReads Parser ParseBase ParseParts ParseExpr ParseRel ParseQuery Good Unvar ParseMain ParseWhole GoodFacts TextFacts
  PropertiesLiterals ClauseFacts.
Import ListNotations.
Open Scope nat_scope.
Open Scope string_scope.

(** * The text

    Operands in parentheses, operator and quantifier are there, on one line or on three. *)
Definition operator_word (op : set_op) : string :=
  match op with OpIntersect => "INTERSECT" | OpExcept => "EXCEPT" | OpUnion => "UNION" end.
Definition between (o : opts) : string :=
  match omode o with PRETTY => String (ascii_of_nat 10) "" | DEFAULT => " " end.
Theorem C27_text : forall o op l r d qa,
  is_query l = true -> is_query r = true ->
  sql (NSetQuery op l r d qa) o
  = "(" ++ sql l o ++ ")" ++ between o ++ operator_word op ++ " " ++ (if d then "DISTINCT" else "ALL")
    ++ between o ++ "(" ++ sql r o ++ ")".
Proof.
  intros o op l r d qa Hl Hr.
  change (sql (NSetQuery op l r d qa) o) with
    (relation_string false false l (sql l o) o ++ spacing o ++ set_op_text op ++ " "
      ++ quant_text d ++ spacing o ++ relation_string false false r (sql r o) o).
  unfold relation_string. rewrite Hl, Hr. cbn [orb]. rewrite !andb_false_r.
  unfold parenthesize, spacing, between, is_pretty. rewrite !sapp_assoc.
  destruct op, d, (omode o); reflexivity.
Qed.
Print Assumptions C27_text.

(** WITH, ORDER BY, OFFSET and LIMIT of a set operation are not in the text, whatever they are. *)
Theorem C27_attributes_lost : forall o op l r d qa qa',
  to_sql o (NSetQuery op l r d qa) = to_sql o (NSetQuery op l r d qa').
Proof. reflexivity. Qed.
Print Assumptions C27_attributes_lost.
Theorem C27_attributes_refuted :
  exists q q' s, to_sql default_opts q = Ok s /\ to_sql default_opts q' = Ok s /\ q <> q'
    /\ check q = check q' /\ is_ok (check q) = true.
Proof.
  set (one := NSelect [NLit (LInt 1) integer] None None None None false [] no_qattrs).
  exists (NSetQuery OpUnion one one true no_qattrs),
    (NSetQuery OpUnion one one true (mkQ [] [mkOrder (NLit (LInt 1) integer) true false] (Some 2%Z) (Some 3%Z))).
  eexists. each_part. discriminate.
Qed.
Print Assumptions C27_attributes_refuted.

(** * Reading it back

    Trees of set operations over queries without WITH. *)
Inductive stree :=
| SQuery (q : node)
| SOp (op : set_op) (d : bool) (qa : qattrs node) (l r : stree).
Fixpoint snode (t : stree) : node :=
  match t with
  | SQuery q => q
  | SOp op d qa l r => NSetQuery op (snode l) (snode r) d qa
  end.
Definition no_with (q : node) : Prop :=
  match q with
  | NSelect _ _ _ _ _ _ _ qa | NTableQuery _ qa | NValues _ qa => q_with qa = []
  | _ => False
  end.
(** Every query in it can be read back, and the tree can be built: only UNION has a quantifier ALL. *)
Fixpoint stree_fine (en : env) (t : stree) : Prop :=
  match t with
  | SQuery q => fine en q /\ is_q q = true /\ no_with q
  | SOp op d _ l r => stree_fine en l /\ stree_fine en r /\ (op = OpUnion \/ d = true)
  end.
Fixpoint has_union (t : stree) : bool :=
  match t with
  | SQuery _ => false
  | SOp op _ _ l r => (match op with OpUnion => true | _ => false end || has_union l || has_union r)%bool
  end.
(** What is read. *)
Definition reading (t : stree) : result node :=
  match t with
  | SQuery q => Ok q
  | SOp op _ _ _ _ => if has_union t then Err AttributeError else Ok (NSetQuery op NNone NNone true no_qattrs)
  end.

Lemma snode_query en t : stree_fine en t -> is_query (snode t) = true.
Proof. destruct t as [q|]; cbn [stree_fine snode]; [|reflexivity]. intros (_ & H & _). now destruct q. Qed.
Lemma reading_seq t : (let* _ := reading t in Ok NNone) = if has_union t then Err AttributeError else Ok NNone.
Proof. destruct t as [q|op d qa l r]; [reflexivity|]. unfold reading. now destruct (has_union _). Qed.
Lemma stree_toks en op d qa l r : stree_fine en (SOp op d qa l r) ->
  toks (snode (SOp op d qa l r)) = (paren (toks (snode l)) ++ set_op_toks op d ++ paren (toks (snode r)))%list.
Proof.
  cbn [stree_fine snode]. intros (Hl & Hr & _).
  change (toks (NSetQuery op (snode l) (snode r) d qa)) with
    (rel_toks false (snode l) (toks (snode l)) ++ set_op_toks op d ++ rel_toks false (snode r) (toks (snode r)))%list.
  unfold rel_toks. now rewrite (snode_query en l Hl), (snode_query en r Hr).
Qed.
Lemma qend_loop pt k lvl acc rest : qend rest = true -> term_loop pt (S k) lvl acc rest = Ok (acc, rest).
Proof.
  intro H. cbn [term_loop]. destruct rest as [|[] rest]; try discriminate H; reflexivity.
Qed.
Lemma loop_step pt k lvl v w t r :
  term_loop pt (S k) lvl v (TKw w t :: r)
  = match set_kw w with
    | Some (p, op) =>
        if Nat.leb lvl p then
          let '(q, r1) := p_set_quant r in
          let* (b, r2) := pt (S p) r1 in term_loop pt k lvl (v_set op q v b) r2
        else Ok (v, TKw w t :: r)
    | None => Ok (v, TKw w t :: r)
    end.
Proof. reflexivity. Qed.
Lemma no_with_first en q rest : fine en q -> is_q q = true -> no_with q -> eat_kw "WITH" (toks q ++ rest) = None.
Proof.
  intros _ _ N. destruct q; try contradiction; cbn [no_with] in N; destruct qa as [wi ob off lim]; cbn [q_with] in N; subst wi;
    reflexivity.
Qed.
Lemma stree_read en t : stree_fine en t ->
  forall n rest, 8 * length (toks (snode t)) + 3 <= n -> qend rest = true ->
  p_query_no_with en n (toks (snode t) ++ rest) = Ok (reading t, rest).
Proof.
  induction t as [q|op d qa l IHl r IHr]; intros F n rest Hn R.
  - cbn [stree_fine snode reading] in *. destruct F as ([L G] & Q & W).
    pose proof (rb_q _ _ _ (main _ _ _ G) Q) as RQ.
    pose proof (rq_read _ _ _ RQ (S n) rest ltac:(lia) R) as P.
    change (p_query en (S n) (toks q ++ rest)) with
      (query_body (p_query_no_with en n) (p_query en n) (toks q ++ rest)) in P.
    unfold query_body in P. rewrite (no_with_first en) in P by (assumption || (split; assumption)).
    destruct (p_query_no_with en n (toks q ++ rest)) as [[v r1]|]; cbn [bind] in P; [|discriminate P].
    injection P as P <-. f_equal. f_equal. unfold v_query in P. destruct v; cbn [bind] in P; [exact P|discriminate P].
  - rewrite (stree_toks en _ _ _ _ _ F) in *. cbn [stree_fine] in F. destruct F as (Fl & Fr & Hd).
    specialize (IHl Fl). specialize (IHr Fr).
    unfold paren, set_op_toks in *. do 3 (cbn [app] in *; rewrite <- ?app_assoc in * ). cbn [app] in *.
    do 4 (rewrite ?app_length in Hn; cbn [length] in Hn).
    destruct n as [|[|n]]; try lia.
    set (tail := TSym "(" :: toks (snode r) ++ TSym ")" :: rest).
    assert (Tail : forall m, 8 * length (toks (snode r)) + 3 <= m ->
              p_term en (S m) (S match op with OpIntersect => 2 | _ => 1 end) tail
              = Ok ((let* _ := reading r in Ok NNone), rest)).
    { intros m Hm. subst tail.
      change (p_term en (S m) ?l ?ts) with
        (term_body (p_term en m) (p_query_primary (p_bool en m 0) (p_primary en m) (p_relation en m)
                              (p_query_no_with en m)) l ts).
      unfold term_body.
      change (p_query_primary (p_bool en m 0) (p_primary en m) (p_relation en m) (p_query_no_with en m)
                (TSym "(" :: toks (snode r) ++ TSym ")" :: rest))
        with (let* (q, r1) := p_query_no_with en m (toks (snode r) ++ TSym ")" :: rest) in
              let* r2 := need (eat_sym ")" r1) in Ok ((let* _ := q in Ok NNone), r2)).
      rewrite IHr by (reflexivity || lia). cbn [bind]. rewrite eat_sym_same. cbn [need bind].
      now apply qend_loop. }
    change (p_query_no_with en (S (S n)) ?ts) with (qnw_body (p_term en (S n) 0) (p_bool en (S n) 0) ts).
    unfold qnw_body.
    change (p_term en (S n) 0 ?ts) with
        (term_body (p_term en n) (p_query_primary (p_bool en n 0) (p_primary en n) (p_relation en n)
                              (p_query_no_with en n)) 0 ts).
    unfold term_body.
    change (p_query_primary (p_bool en n 0) (p_primary en n) (p_relation en n) (p_query_no_with en n)
              (TSym "(" :: ?ts))
      with (let* (q, r1) := p_query_no_with en n ts in
            let* r2 := need (eat_sym ")" r1) in Ok ((let* _ := q in Ok NNone), r2)).
    rewrite IHl by (reflexivity || lia). cbn [bind]. rewrite eat_sym_same. cbn [need bind].
    destruct n as [|n]; [lia|].
    assert (Loop : forall k v,
      term_loop (p_term en (S n)) (S (S k)) 0 v (K (set_op_text op) :: K (quant_text d) :: tail)
      = Ok (v_set op (Some (quant_text d)) v (let* _ := reading r in Ok NNone), rest)).
    { intros k v. specialize (Tail n ltac:(lia)).
      assert (E : p_set_quant (K (quant_text d) :: tail) = (Some (quant_text d), tail)) by (destruct d; reflexivity).
      unfold Tokens.K at 1. rewrite loop_step.
      destruct op; cbn [set_op_text] in *; cbn [set_kw String.eqb Ascii.eqb Bool.eqb Nat.leb];
        rewrite E; rewrite Tail; cbn [bind]; now rewrite qend_loop. }
    cbn [length]. rewrite Loop. cbn [bind].
    assert (p_orderby (p_bool en (S (S n)) 0) rest = Ok (None, rest)) as ->.
    { destruct rest as [|[] rest]; try discriminate R; reflexivity. }
    cbn [bind].
    assert (p_offset rest = Ok (None, rest)) as ->.
    { destruct rest as [|[] rest]; try discriminate R; reflexivity. }
    cbn [bind].
    assert (p_limit rest = Ok (None, rest)) as ->.
    { destruct rest as [|[] rest]; try discriminate R; reflexivity. }
    cbn [bind]. f_equal. f_equal. unfold v_query_no_with, v_set. rewrite !reading_seq.
    unfold reading. cbn [has_union].
    destruct (has_union l), (has_union r), op, Hd as [Hd|Hd]; try discriminate Hd; subst; try reflexivity;
      destruct d; reflexivity.
Qed.

(** The text of a set operation is never read back as that set operation: with
    a UNION anywhere reading raises, and otherwise both operands are lost. *)
Lemma stree_printable en t : stree_fine en t -> printable (snode t) = Ok tt.
Proof.
  induction t as [q|op d qa l IHl r IHr]; cbn [stree_fine snode].
  - intros ([_ G] & _). exact (good_printable _ _ _ G).
  - intros (Fl & Fr & _). cbn [printable]. rewrite (IHl Fl). cbn [bind]. exact (IHr Fr).
Qed.
(** The same tree without the attributes that are not printed. *)
Fixpoint plain_tree (t : stree) : stree :=
  match t with SQuery q => SQuery q | SOp op d _ l r => SOp op d no_qattrs (plain_tree l) (plain_tree r) end.
Lemma plain_fine en t : stree_fine en t -> stree_fine en (plain_tree t).
Proof. induction t; cbn [stree_fine plain_tree]; tauto. Qed.
Lemma plain_lexable en t : stree_fine en t -> lexable (snode (plain_tree t)).
Proof.
  induction t as [q|op d qa l IHl r IHr]; cbn [stree_fine plain_tree snode].
  - now intros ([L _] & _).
  - intros (Fl & Fr & _). constructor; [reflexivity|]. cbn [kids qattrs_kids no_qattrs app map].
    intros x [<-|[<-|[]]]; auto.
Qed.
Lemma plain_sql en o t : stree_fine en t -> sql (snode t) o = sql (snode (plain_tree t)) o.
Proof.
  induction t as [q|op d qa l IHl r IHr]; intro F; [reflexivity|].
  pose proof (plain_fine _ _ F) as F'. cbn [stree_fine plain_tree snode] in *.
  destruct F as (Fl & Fr & _), F' as (Fl' & Fr' & _).
  rewrite !C27_text by (eapply snode_query; eassumption). now rewrite IHl, IHr.
Qed.
Lemma plain_reading t : reading (plain_tree t) = reading t.
Proof.
  assert (U : forall t, has_union (plain_tree t) = has_union t).
  { clear t. induction t; cbn [has_union plain_tree]; congruence. }
  destruct t as [q|op d qa l r]; [reflexivity|]. unfold reading. now rewrite U.
Qed.
Theorem C27_read_back : forall en t o,
  stree_fine en t -> ospaces o < 80 ->
  exists s, to_sql o (snode t) = Ok s /\ query_from_sql en s = reading t.
Proof.
  intros en t o F Ho. exists (sql (snode t) o). split.
  - unfold to_sql. apply Nat.ltb_lt in Ho. rewrite Ho. cbn [py_assert bind].
    now rewrite (stree_printable en t F).
  - rewrite (plain_sql en o t F). unfold query_from_sql.
    rewrite lex_sql by (eapply plain_lexable; exact F).
    rewrite <- (plain_reading t). pose proof (plain_fine _ _ F) as F'. revert F'. generalize (plain_tree t). clear.
    intros t F. unfold query_of_tokens, parse_fuel.
    pose proof (stree_read en t F (8 * length (toks (snode t)) + 7) [] ltac:(lia) eq_refl) as P.
    rewrite app_nil_r in P. replace (8 * length (toks (snode t)) + 8) with (S (8 * length (toks (snode t)) + 7)) by lia.
    change (p_query en (S ?n) ?ts) with (query_body (p_query_no_with en n) (p_query en n) ts). unfold query_body.
    assert (eat_kw "WITH" (toks (snode t)) = None) as ->.
    { destruct t as [q|op d qa l r].
      - cbn [stree_fine snode] in *. destruct F as (G & Q & W). rewrite <- (app_nil_r (toks q)). exact (no_with_first en q [] G Q W).
      - now rewrite (stree_toks en _ _ _ _ _ F). }
    rewrite P. cbn [bind]. unfold v_query. now destruct (reading t).
Qed.
Print Assumptions C27_read_back.
Theorem C27_never_same : forall en op d qa l r o,
  stree_fine en (SOp op d qa l r) -> ospaces o < 80 ->
  exists s, to_sql o (snode (SOp op d qa l r)) = Ok s
    /\ forall q, query_from_sql en s = Ok q -> q <> snode (SOp op d qa l r).
Proof.
  intros en op d qa l r o F Ho. destruct (C27_read_back en _ o F Ho) as (s & S & R). exists s. split; [exact S|].
  intros q Q. rewrite R in Q. unfold reading in Q.
  destruct (has_union (SOp op d qa l r)); [discriminate Q|]. injection Q as <-. cbn [snode].
  intro E. injection E as E _ _ _. destruct F as (Fl & _). pose proof (snode_query en l Fl) as X. now rewrite <- E in X.
Qed.
Print Assumptions C27_never_same.

(** Nevertheless the text determines operator, quantifier and operands (even
    across layouts): nothing but the attributes above is lost in printing. *)
Theorem C27_text_determines : forall en o o' op op' d d' qa qa' l l' r r',
  stree_fine en (SOp op d qa (SQuery l) (SQuery r)) ->
  stree_fine en (SOp op' d' qa' (SQuery l') (SQuery r')) ->
  sql (NSetQuery op l r d qa) o = sql (NSetQuery op' l' r' d' qa') o' ->
  op = op' /\ d = d' /\ l = l' /\ r = r'.
Proof.
  intros en o o' op op' d d' qa qa' l l' r r' F F' E.
  change (NSetQuery op l r d qa) with (snode (SOp op d qa (SQuery l) (SQuery r))) in E.
  change (NSetQuery op' l' r' d' qa') with (snode (SOp op' d' qa' (SQuery l') (SQuery r'))) in E.
  rewrite (plain_sql en o _ F), (plain_sql en o' _ F') in E. apply (f_equal lex) in E.
  rewrite !lex_sql in E by (eapply plain_lexable; eassumption).
  pose proof (plain_fine _ _ F) as G. pose proof (plain_fine _ _ F') as G'.
  cbn [plain_tree] in *.
  rewrite (stree_toks en _ _ _ _ _ G), (stree_toks en _ _ _ _ _ G') in E. cbn [snode] in E.
  cbn [stree_fine] in G, G'. destruct G as (((L1 & G1) & Q1 & _) & ((L2 & G2) & Q2 & _) & _).
  destruct G' as (((L1' & G1') & Q1' & _) & ((L2' & G2') & Q2' & _) & _).
  unfold paren, set_op_toks in E. do 3 (cbn [app] in E; rewrite <- ?app_assoc in E). cbn [app] in E.
  injection E as E.
  assert (A : forall x y rx ry, good en [] x -> is_q x = true -> good en [] y -> is_q y = true ->
            (toks x ++ TSym ")" :: rx)%list = (toks y ++ TSym ")" :: ry)%list -> x = y /\ rx = ry).
  { clear. intros x y rx ry Gx Qx Gy Qy E.
    pose proof (rb_q _ _ _ (main _ _ _ Gx) Qx) as Rx. pose proof (rb_q _ _ _ (main _ _ _ Gy) Qy) as Ry.
    set (n := 8 * length (toks x) + 8 * length (toks y) + 4).
    pose proof (rq_read _ _ _ Rx n (TSym ")" :: rx) ltac:(lia) eq_refl) as Px.
    pose proof (rq_read _ _ _ Ry n (TSym ")" :: ry) ltac:(lia) eq_refl) as Py.
    rewrite E in Px. rewrite Px in Py. injection Py as <- <-. now split. }
  destruct (A _ _ _ _ G1 Q1 G1' Q1' E) as [<- E2]. injection E2 as Eop _ Eq _ E3.
  destruct (A r r' [] [] G2 Q2 G2' Q2' E3) as [<- _].
  repeat split.
  - destruct op, op'; (reflexivity || discriminate Eop).
  - destruct d, d'; (reflexivity || discriminate Eq).
Qed.
Print Assumptions C27_text_determines.

(** Cases. *)
Local Definition leaf (n : string) : stree :=
  SQuery (NSelect [column n] (Some (NTable "t" None None)) (Some (NBin BGt (column "x") (column "y"))) None None false []
                  (mkQ [] [mkOrder (column n) true false] None (Some 5%Z))).
Local Definition tree : stree :=
  SOp OpExcept true (mkQ [] [] None (Some 7%Z)) (SOp OpIntersect true no_qattrs (leaf "a") (leaf "b")) (leaf "c").
Local Definition union_tree : stree := SOp OpUnion false no_qattrs (leaf "a") (leaf "b").
Example C27_case_fine : stree_fine bare_env tree /\ stree_fine bare_env union_tree.
Proof.
  assert (L : forall n, In n ["a"; "b"; "c"] -> stree_fine bare_env (leaf n)).
  { intros n Hn. cbn [stree_fine leaf].
    split; [split; [apply (lexable_dec 9) | apply (good_dec bare_env 9)] | split; reflexivity];
      cbn [In] in Hn; repeat (destruct Hn as [<-|Hn]; [vm_compute; reflexivity|]); destruct Hn. }
  cbn [stree_fine tree union_tree].
  repeat match goal with |- _ /\ _ => split end; try (apply L; cbn; tauto); (now left) || (now right).
Qed.
Example C27_case :
  to_sql default_opts (snode tree)
  = Ok "((SELECT ""a"" FROM ""t"" WHERE ""x"" > ""y"" ORDER BY ""a"" DESC LIMIT 5) INTERSECT DISTINCT (SELECT ""b"" FROM ""t"" WHERE ""x"" > ""y"" ORDER BY ""b"" DESC LIMIT 5)) EXCEPT DISTINCT (SELECT ""c"" FROM ""t"" WHERE ""x"" > ""y"" ORDER BY ""c"" DESC LIMIT 5)"
  /\ reading tree = Ok (NSetQuery OpExcept NNone NNone true no_qattrs)
  /\ to_sql default_opts (snode union_tree)
     = Ok "(SELECT ""a"" FROM ""t"" WHERE ""x"" > ""y"" ORDER BY ""a"" DESC LIMIT 5) UNION ALL (SELECT ""b"" FROM ""t"" WHERE ""x"" > ""y"" ORDER BY ""b"" DESC LIMIT 5)"
  /\ reading union_tree = Err AttributeError.
Proof. each_part. Qed.
