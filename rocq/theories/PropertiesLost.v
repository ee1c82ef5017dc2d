(** Property theorems C37: what is read as nothing. *)
From Coq Require Import String Ascii List Bool ZArith NArith Arith Lia.
From Verif Require Import PyStr StrFacts Printer PrinterFacts Types Inference Lexer LexFacts TypeParser Functions Ast Sql
  Tokens ReadsFacts SqlReads Parser TypeRoundTrip ParseBase ParseParts ParseExpr ParsePrim ParseForms ParseRel ParseQuery Good
  Unvar ParseMain ParseWhole GoodFacts TextFacts PropertiesLiterals ClauseFacts PropertiesSets PropertiesSetReading.
Import ListNotations.
Open Scope nat_scope.
Open Scope string_scope.

(** * The texts *)
Definition exists_text (o : opts) (q : node) : string := "EXISTS (" ++ sql q o ++ ")".
Definition exists_toks (q : node) : list token := K "EXISTS" :: paren (toks q).
Definition printable_query (en : env) (q : node) : Prop := fine en q /\ is_q q = true.

Lemma paren_reads s ts : reads s ts -> reads ("(" ++ s ++ ")") (paren ts).
Proof. exact (reads_paren s ts). Qed.
Lemma query_reads en q o : printable_query en q -> reads (sql q o) (toks q).
Proof. intros [[L _] _]. now apply reads_sql. Qed.
Lemma exists_reads en q o : printable_query en q -> reads (exists_text o q) (exists_toks q).
Proof.
  intro H. unfold exists_text, exists_toks.
  change ("EXISTS (" ++ sql q o ++ ")") with ("EXISTS " ++ "(" ++ sql q o ++ ")").
  change (K "EXISTS" :: paren (toks q)) with ([K "EXISTS"] ++ paren (toks q))%list.
  eapply closed_app; [apply closed_val; vm_compute; reflexivity|]. apply paren_reads. now apply (query_reads en).
Qed.

(** * Reading EXISTS *)
Lemma exists_primary en q n rest : Rq en q (toks q) -> 8 * length (toks q) + 4 <= n -> lev rest <= 8 ->
  p_primary en (S n) (exists_toks q ++ rest) = Ok (Ok NNone, rest).
Proof.
  intros [_ Q] Hn Hr.
  change (p_primary en (S n) (exists_toks q ++ rest))
    with (prim_body en (p_bool en n 0) (p_value en n 0) (p_query en n) (exists_toks q ++ rest)).
  unfold prim_body, exists_toks, paren, Tokens.K. cbn [app]. rewrite <- app_assoc. cbn [app].
  cbn [prim_head]. unfold p_keyword. cbn [String.eqb Ascii.eqb Bool.eqb].
  rewrite eat_sym_same. cbn [need bind]. rewrite Q by (reflexivity || lia). cbn [bind].
  rewrite eat_sym_same. cbn [need bind]. apply post_stop; lia.
Qed.
Lemma exists_value en q n lvl rest : Rq en q (toks q) -> 8 * length (toks q) + 5 <= n -> lev rest <= 4 ->
  p_value en (S n) lvl (exists_toks q ++ rest) = Ok (Ok NNone, rest).
Proof.
  intros Q Hn Hr. destruct n as [|n]; [lia|].
  change (p_value en (S (S n)) lvl (exists_toks q ++ rest))
    with (let* (a, r) := p_primary en (S n) (exists_toks q ++ rest) in
          value_loop (p_value en (S n)) (S (length r)) lvl a r).
  rewrite exists_primary by (auto; lia). cbn [bind]. apply value_stop; lia.
Qed.
Lemma exists_loop en q n lvl rest : Rq en q (toks q) -> 8 * length (toks q) + 6 <= n -> lev rest <= 2 ->
  p_bool en (S n) lvl (exists_toks q ++ rest)
  = bool_loop (p_bool en n) (S (length rest)) lvl (Ok NNone) rest.
Proof.
  intros Q Hn Hr. destruct n as [|n]; [lia|].
  change (p_bool en (S (S n)) lvl (exists_toks q ++ rest))
    with (bool_body (p_bool en (S n)) (p_value en (S n) 0) (p_query en (S n)) lvl (exists_toks q ++ rest)).
  unfold bool_body.
  change (eat_kw "NOT" (exists_toks q ++ rest)) with (@None (list token)). cbv iota.
  rewrite exists_value by (auto; lia). cbn [bind]. rewrite predicate_stop by lia. reflexivity.
Qed.
Lemma exists_bool en q n lvl rest : Rq en q (toks q) -> 8 * length (toks q) + 7 <= n ->
  lev rest = 0 \/ (lev rest < lvl /\ lev rest <= 2) ->
  p_bool en n lvl (exists_toks q ++ rest) = Ok (Ok NNone, rest).
Proof.
  intros Q Hn Hr. destruct n as [|n]; [lia|]. rewrite exists_loop by (auto; lia). apply bool_stop; lia.
Qed.
Lemma exists_reads_as en q : Rq en q (toks q) -> reads_as en NNone (exists_toks q).
Proof.
  intros Q n Hn rest Hr. apply exists_bool; [exact Q | | now left].
  unfold exists_toks, paren in Hn. cbn [length] in Hn. rewrite app_length in Hn. cbn [length] in Hn. lia.
Qed.
Lemma printable_rq en q : printable_query en q -> Rq en q (toks q).
Proof. intros [[_ G] Q]. exact (rb_q _ _ _ (main _ _ _ G) Q). Qed.

Theorem C37_exists_is_none : forall en q o,
  printable_query en q -> expression_from_sql en (exists_text o q) = Ok NNone.
Proof.
  intros en q o H. unfold expression_from_sql. rewrite (reads_lex _ _ (exists_reads en q o H)).
  unfold expression_of_tokens. rewrite <- (app_nil_r (exists_toks q)) at 2.
  rewrite exists_bool; [reflexivity | now apply printable_rq | | now left].
  unfold parse_fuel, exists_toks, paren. cbn [length]. rewrite app_length. cbn [length]. lia.
Qed.
Print Assumptions C37_exists_is_none.

(** ** WHERE and HAVING *)
Lemma core_ending en p tc ob off lim : Core en p tc -> bare p -> ending_fine en ob off lim ->
  query_of_tokens en (tc ++ ending_toks ob off lim) = Ok (finished ob off lim p).
Proof.
  intros C B (Ho & Hf & Hl). set (tob := map (order_fmap toks) ob).
  assert (Exo_ob : Forall2 (order_rel (Exo en)) ob tob).
  { apply same_orders. intros x Hx. apply in_map_iff in Hx as (y & <- & Hy). destruct (Ho y Hy) as [[_ G] Ex].
    exists (cat (o_value y)). pose proof (rb_expr _ _ _ (main _ _ _ G) Ex) as X.
    rewrite (unvar_same en [] _ G) in X by auto. exact X. }
  pose proof (Rq_query en [] [] p tc ob tob off lim (Forall2_nil _) C B Exo_ob Hf Hl) as R.
  unfold query_text in R. cbn [with_text app] in R. fold (ending_toks ob off lim) in R.
  unfold ending_toks. fold tob. unfold query_of_tokens.
  pose proof (rq_read _ _ _ R (parse_fuel (tc ++ orders_text tob ++ count_text "OFFSET" off ++ count_text "LIMIT" lim)) []) as P.
  rewrite app_nil_r in P. rewrite P; [|unfold parse_fuel; lia|reflexivity]. cbn [bind]. f_equal.
  destruct p; try contradiction; reflexivity.
Qed.
Lemma parts_of en sel fr wh gb hv d ws qa :
  good en [] (NSelect sel fr wh gb hv d ws qa) -> Parts en sel fr wh gb hv ws.
Proof.
  intro G. inversion G as [vs e H L V E]; subst. apply (select_parts en sel fr wh gb hv d ws qa); [exact H| |].
  - exact L.
  - intros x Hx. apply main, L, Hx.
Qed.
Lemma select_whole en sel fr wh gb hv d ws :
  good en [] (NSelect sel fr wh gb hv d ws no_qattrs) -> made (NSelect sel fr wh gb hv d ws no_qattrs).
Proof. intro G. destruct (good_check _ _ _ G) as [t H]. now exists t. Qed.
Lemma bare_toks sel fr wh gb hv d ws :
  toks (NSelect sel fr wh gb hv d ws no_qattrs)
  = select_text d (map toks sel) (option_map rtoks fr) (option_map toks wh)
         (option_map (groupby_fmap toks) gb) (option_map toks hv)
         (map (fun nw => (fst nw, window_fmap toks (snd nw))) ws).
Proof. rewrite select_core_toks. change (with_toks toks no_qattrs) with (@nil token).
  change (constraint_toks toks no_qattrs) with (@nil token). now rewrite app_nil_r. Qed.

Theorem C37_where_dropped : forall en o sel fr d q ob off lim,
  let p := NSelect sel fr None None None d [] no_qattrs in
  fine en p -> printable_query en q -> ending_fine en ob off lim ->
  query_from_sql en (sql p o ++ " WHERE " ++ exists_text o q ++ ending o ob off lim)
  = Ok (finished ob off lim p).
Proof.
  intros en o sel fr d q ob off lim p [L G] Q E.
  assert (R : reads (sql p o ++ " WHERE " ++ exists_text o q ++ ending o ob off lim)
                    ((toks p ++ K "WHERE" :: exists_toks q) ++ ending_toks ob off lim)%list).
  { rewrite <- app_assoc. apply reads_app; [now apply reads_sql | reflexivity |].
    change ((K "WHERE" :: exists_toks q) ++ ending_toks ob off lim)%list
      with ([K "WHERE"] ++ exists_toks q ++ ending_toks ob off lim)%list.
    eapply closed_app; [apply closed_val; vm_compute; reflexivity|].
    apply blank_reads; [now apply (exists_reads en) | apply ending_blank | now apply (ending_reads en)]. }
  unfold query_from_sql. rewrite (reads_lex _ _ R). apply core_ending; [|reflexivity|exact E].
  destruct (parts_of _ _ _ _ _ _ _ _ _ G) as [P1 P2 P3 P4 P5 P6 P7 P8].
  assert (T : (toks p ++ K "WHERE" :: exists_toks q)%list
              = select_text d (map toks sel) (option_map rtoks fr) (Some (exists_toks q)) None None []).
  { subst p. rewrite bare_toks. unfold select_text. cbn [option_map map expr_clause group_clause windows_text app].
    rewrite !app_nil_r. cbn [app]. now rewrite <- !app_assoc. }
  rewrite T. apply (Core_select_conds en d sel _ fr fr _ None (Some NNone) _ None None None None None [] []); auto.
  - now apply Rl_from.
  - split; [apply exists_reads_as; now apply printable_rq | reflexivity].
  - split; [exact Logic.I | reflexivity].
  - now apply (select_whole en).
Qed.
Print Assumptions C37_where_dropped.
Theorem C37_having_dropped : forall en o sel fr wh gb d q ob off lim,
  let p := NSelect sel fr wh gb None d [] no_qattrs in
  fine en p -> printable_query en q -> ending_fine en ob off lim ->
  query_from_sql en (sql p o ++ " HAVING " ++ exists_text o q ++ ending o ob off lim)
  = Ok (finished ob off lim p).
Proof.
  intros en o sel fr wh gb d q ob off lim p [L G] Q E.
  assert (R : reads (sql p o ++ " HAVING " ++ exists_text o q ++ ending o ob off lim)
                    ((toks p ++ K "HAVING" :: exists_toks q) ++ ending_toks ob off lim)%list).
  { rewrite <- app_assoc. apply reads_app; [now apply reads_sql | reflexivity |].
    change ((K "HAVING" :: exists_toks q) ++ ending_toks ob off lim)%list
      with ([K "HAVING"] ++ exists_toks q ++ ending_toks ob off lim)%list.
    eapply closed_app; [apply closed_val; vm_compute; reflexivity|].
    apply blank_reads; [now apply (exists_reads en) | apply ending_blank | now apply (ending_reads en)]. }
  unfold query_from_sql. rewrite (reads_lex _ _ R). apply core_ending; [|reflexivity|exact E].
  destruct (parts_of _ _ _ _ _ _ _ _ _ G) as [P1 P2 P3 P4 P5 P6 P7 P8].
  assert (T : (toks p ++ K "HAVING" :: exists_toks q)%list
              = select_text d (map toks sel) (option_map rtoks fr) (option_map toks wh)
                  (option_map (groupby_fmap toks) gb) (Some (exists_toks q)) []).
  { subst p. rewrite bare_toks. unfold select_text. cbn [option_map map expr_clause windows_text app].
    rewrite !app_nil_r. cbn [app]. now rewrite <- !app_assoc. }
  rewrite T. apply (Core_select_conds en d sel _ fr fr _ wh wh _ gb _ None (Some NNone) _ [] []); auto.
  - now apply Rl_from.
  - now apply Exo_cond.
  - split; [apply exists_reads_as; now apply printable_rq | reflexivity].
  - now apply (select_whole en).
Qed.
Print Assumptions C37_having_dropped.

(** ** A query in one pair of parentheses too many *)
Definition no_with_query (en : env) (q : node) : Prop := printable_query en q /\ no_with q.
Lemma paren_query en q : no_with_query en q ->
  forall n rest, 8 * length (toks q) + 16 <= n -> qend rest = true ->
  p_query en n (paren (toks q) ++ rest) = Ok (Ok NNone, rest).
Proof.
  intros [[F Q] W] n rest Hn R. destruct n as [|[|[|n]]]; try lia.
  pose proof (stree_read en (SQuery q) (conj F (conj Q W)) n (TSym ")" :: rest)) as P.
  cbn [snode reading] in P. specialize (P ltac:(lia) eq_refl).
  change (p_query en (S (S (S n))) (paren (toks q) ++ rest)) with
    (query_body (p_query_no_with en (S (S n))) (p_query en (S (S n))) (paren (toks q) ++ rest)).
  unfold query_body, paren. cbn [app]. rewrite <- app_assoc. cbn [app].
  change (eat_kw "WITH" (TSym "(" :: toks q ++ TSym ")" :: rest)) with (@None (list token)). cbv iota.
  change (p_query_no_with en (S (S n)) ?ts) with (qnw_body (p_term en (S n) 0) (p_bool en (S n) 0) ts).
  unfold qnw_body.
  change (p_term en (S n) 0 ?ts) with
      (term_body (p_term en n) (p_query_primary (p_bool en n 0) (p_primary en n) (p_relation en n)
                            (p_query_no_with en n)) 0 ts).
  unfold term_body.
  change (p_query_primary (p_bool en n 0) (p_primary en n) (p_relation en n) (p_query_no_with en n)
            (TSym "(" :: ?ts))
    with (let* (q, r1) := p_query_no_with en n ts in
          let* r2 := need (eat_sym ")" r1) in Ok ((let* _ := q in Ok NNone), r2)).
  rewrite P. cbn [bind]. rewrite eat_sym_same. cbn [need bind]. rewrite qend_loop by exact R. cbn [bind].
  assert (p_orderby (p_bool en (S n) 0) rest = Ok (None, rest)) as ->
    by (destruct rest as [|[] rest]; try discriminate R; reflexivity). cbn [bind].
  assert (p_offset rest = Ok (None, rest)) as -> by (destruct rest as [|[] rest]; try discriminate R; reflexivity).
  cbn [bind].
  assert (p_limit rest = Ok (None, rest)) as -> by (destruct rest as [|[] rest]; try discriminate R; reflexivity).
  reflexivity.
Qed.
Theorem C37_parenthesised_is_none : forall en q o,
  no_with_query en q -> query_from_sql en ("(" ++ sql q o ++ ")") = Ok NNone.
Proof.
  intros en q o H. pose proof H as [Pq _]. unfold query_from_sql.
  rewrite (reads_lex _ _ (paren_reads _ _ (query_reads en q o Pq))). unfold query_of_tokens.
  rewrite <- (app_nil_r (paren (toks q))) at 2. rewrite (paren_query en q H); [reflexivity | | reflexivity].
  unfold parse_fuel, paren. cbn [length]. rewrite app_length. cbn [length]. lia.
Qed.
Print Assumptions C37_parenthesised_is_none.
Lemma double_paren_rel en q : no_with_query en q -> rel_reads_as en NNone (paren (paren (toks q))).
Proof.
  intros H n rest Hn E. destruct n as [|n]; [lia|].
  unfold paren at 1 in Hn. cbn [length] in Hn. rewrite app_length in Hn. cbn [length] in Hn.
  unfold paren in Hn. cbn [length] in Hn. rewrite app_length in Hn. cbn [length] in Hn.
  change (p_relation en (S n) ?ts) with
    (relation_body (p_bool en n 0) (p_query en n) (p_relation en n) ts).
  unfold relation_body, p_sampled, p_aliased, p_relation_primary.
  unfold paren at 1. cbn [app]. rewrite <- app_assoc. cbn [app].
  change (String.eqb "(" "(") with true. cbv iota.
  rewrite (paren_query en q H n (TSym ")" :: rest)) by (reflexivity || lia). cbn [bind].
  rewrite eat_sym_same. cbn [need bind orelse].
  rewrite (en_alias _ (ce_ender _ E)). cbn [bind v_aliased_rel]. rewrite (ce_sample _ E).
  destruct (clause_ahead rest); cbn [bind]; cbn [rel_loop]; now rewrite (ce_join _ E).
Qed.
Theorem C37_from_dropped : forall en o sel d q ob off lim,
  let p := NSelect sel None None None None d [] no_qattrs in
  fine en p -> no_with_query en q -> ending_fine en ob off lim ->
  query_from_sql en (sql p o ++ " FROM ((" ++ sql q o ++ "))" ++ ending o ob off lim)
  = Ok (finished ob off lim p).
Proof.
  intros en o sel d q ob off lim p [L G] Q E. pose proof Q as [Pq _].
  assert (R : reads (sql p o ++ " FROM ((" ++ sql q o ++ "))" ++ ending o ob off lim)
                    ((toks p ++ K "FROM" :: paren (paren (toks q))) ++ ending_toks ob off lim)%list).
  { rewrite <- app_assoc. apply reads_app; [now apply reads_sql | reflexivity |].
    change ((K "FROM" :: paren (paren (toks q))) ++ ending_toks ob off lim)%list
      with ([K "FROM"] ++ paren (paren (toks q)) ++ ending_toks ob off lim)%list.
    replace (" FROM ((" ++ sql q o ++ "))" ++ ending o ob off lim)
      with (" FROM " ++ ("(" ++ ("(" ++ sql q o ++ ")") ++ ")") ++ ending o ob off lim)
      by (rewrite !sapp_assoc; reflexivity).
    eapply closed_app; [apply closed_val; vm_compute; reflexivity|].
    apply blank_reads; [apply paren_reads, paren_reads; now apply (query_reads en)
                       | apply ending_blank | now apply (ending_reads en)]. }
  unfold query_from_sql. rewrite (reads_lex _ _ R). apply core_ending; [|reflexivity|exact E].
  destruct (parts_of _ _ _ _ _ _ _ _ _ G) as [P1 P2 P3 P4 P5 P6 P7 P8].
  assert (T : (toks p ++ K "FROM" :: paren (paren (toks q)))%list
              = select_text d (map toks sel) (Some (paren (paren (toks q)))) None None None []).
  { subst p. rewrite bare_toks. unfold select_text, from_text.
    cbn [option_map map expr_clause group_clause windows_text app].
    rewrite !app_nil_r. cbn [app]. now rewrite <- !app_assoc. }
  rewrite T. apply (Core_select_conds en d sel _ None (Some NNone) _ None None None None None None None None [] []); auto.
  - split; [now apply double_paren_rel | reflexivity].
  - split; [exact Logic.I | reflexivity].
  - split; [exact Logic.I | reflexivity].
  - now apply (select_whole en).
Qed.
Print Assumptions C37_from_dropped.

(** ** Combined with anything, EXISTS raises *)
Theorem C37_not_exists_raises : forall en q o,
  printable_query en q -> expression_from_sql en ("NOT " ++ exists_text o q) = Err TypeError.
Proof.
  intros en q o H. unfold expression_from_sql.
  assert (R : reads ("NOT " ++ exists_text o q) ([K "NOT"] ++ exists_toks q)%list).
  { eapply closed_app; [apply closed_val; vm_compute; reflexivity | now apply (exists_reads en)]. }
  rewrite (reads_lex _ _ R). unfold expression_of_tokens. cbn [app].
  set (ts := (K "NOT" :: exists_toks q)%list).
  assert (F : exists n, parse_fuel ts = S n /\ 8 * length (toks q) + 7 <= n).
  { exists (8 * length ts + 7). split; [unfold parse_fuel; lia|]. subst ts. unfold exists_toks, paren.
    cbn [length]. rewrite app_length. cbn [length]. lia. }
  destruct F as (n & -> & Hn).
  change (p_bool en (S n) 0 ts) with (bool_body (p_bool en n) (p_value en n 0) (p_query en n) 0 ts).
  unfold bool_body, ts. rewrite eat_kw_same. rewrite <- (app_nil_r (exists_toks q)).
  rewrite exists_bool; [|now apply printable_rq|exact Hn|now left]. cbn [bind].
  rewrite bool_stop; [reflexivity | now left | lia].
Qed.
Print Assumptions C37_not_exists_raises.
Theorem C37_and_exists_raises : forall en q e w o,
  In w ["AND"; "OR"] -> printable_query en q -> fine_expr en e ->
  expression_from_sql en (exists_text o q ++ " " ++ w ++ " (" ++ sql e o ++ ")") = Err ValueError
  /\ expression_from_sql en ("(" ++ sql e o ++ ") " ++ w ++ " " ++ exists_text o q) = Err ValueError.
Proof.
  intros en q e w o W H [[L G] X].
  assert (E : Ex en (cat e) e (toks e)).
  { pose proof (rb_expr _ _ _ (main _ _ _ G) X) as E. rewrite (unvar_same en [] e G) in E by auto. exact E. }
  apply Ex_paren in E; [|apply cat_most].
  pose proof (printable_rq en q H) as Q.
  assert (Le : reads ("(" ++ sql e o ++ ")") (paren (toks e))) by (now apply paren_reads, reads_sql).
  assert (V1 : forall op b, v_logic op (Ok NNone) (Ok b) = Err ValueError) by reflexivity.
  assert (V2 : forall op, v_logic op (Ok e) (Ok NNone) = Err ValueError).
  { intro op. unfold v_logic, mk. cbn [bind check]. destruct (good_check _ _ _ G) as [t Ct]. rewrite Ct.
    destruct (ex_typed _ _ _ _ E) as [ty T]. rewrite Ct in T. destruct e; try discriminate X; rewrite T; reflexivity. }
  split; unfold expression_from_sql.
  - assert (R : reads (exists_text o q ++ " " ++ w ++ " (" ++ sql e o ++ ")")
                      (exists_toks q ++ K w :: paren (toks e))%list).
    { apply blank_reads; [now apply (exists_reads en) | right; eexists; reflexivity |].
      change (K w :: paren (toks e)) with ([K w] ++ paren (toks e))%list.
      replace (" " ++ w ++ " (" ++ sql e o ++ ")") with ((" " ++ w ++ " ") ++ "(" ++ sql e o ++ ")")
        by (now rewrite !sapp_assoc).
      eapply closed_app; [|exact Le]. destruct W as [<-|[<-|[]]]; apply closed_val; vm_compute; reflexivity. }
    rewrite (reads_lex _ _ R). unfold expression_of_tokens.
    set (ts := (exists_toks q ++ K w :: paren (toks e))%list).
    assert (F : exists n, parse_fuel ts = S n /\ 8 * length (toks q) + 6 <= n /\ 8 * length (paren (toks e)) + 4 <= n).
    { exists (8 * length ts + 7). split; [unfold parse_fuel; lia|]. subst ts. unfold exists_toks. rewrite app_length.
      unfold paren. cbn [length]. rewrite !app_length. cbn [length]. lia. }
    destruct F as (n & -> & Hn & Hn'). subst ts.
    rewrite exists_loop; [|exact Q|exact Hn|destruct W as [<-|[<-|[]]]; cbn; lia].
    assert (P : forall lvl, lvl <= 3 -> p_bool en n lvl (paren (toks e)) = Ok (Ok e, [])).
    { intros lvl Hl. pose proof (ex_bool_at en 9 e (paren (toks e)) n lvl [] E Hn') as P.
      rewrite app_nil_r in P. apply P; [unfold blvl; cbn; lia | cbn; lia | now left]. }
    unfold Tokens.K. cbn [length bool_loop].
    destruct W as [<-|[<-|[]]]; cbn [String.eqb Ascii.eqb Bool.eqb Nat.leb andb]; rewrite P by lia; cbn [bind];
      rewrite V1; reflexivity.
  - assert (R : reads ("(" ++ sql e o ++ ") " ++ w ++ " " ++ exists_text o q)
                      (paren (toks e) ++ K w :: exists_toks q)%list).
    { replace ("(" ++ sql e o ++ ") " ++ w ++ " " ++ exists_text o q)
        with (("(" ++ sql e o ++ ")") ++ (" " ++ w ++ " ") ++ exists_text o q) by (now rewrite !sapp_assoc).
      apply blank_reads; [exact Le | right; eexists; rewrite !sapp_assoc; reflexivity |].
      change (K w :: exists_toks q) with ([K w] ++ exists_toks q)%list.
      eapply closed_app; [|now apply (exists_reads en)].
      destruct W as [<-|[<-|[]]]; apply closed_val; vm_compute; reflexivity. }
    rewrite (reads_lex _ _ R). unfold expression_of_tokens.
    set (ts := (paren (toks e) ++ K w :: exists_toks q)%list).
    assert (F : exists n, parse_fuel ts = S n /\ 8 * length (toks q) + 7 <= n /\ 8 * length (paren (toks e)) + 3 <= n).
    { exists (8 * length ts + 7). split; [unfold parse_fuel; lia|]. subst ts. unfold exists_toks. rewrite app_length.
      unfold paren. cbn [length]. rewrite !app_length. cbn [length]. lia. }
    destruct F as (n & -> & Hn & Hn'). subst ts.
    destruct (ex_bool _ _ _ _ E n 0 (K w :: exists_toks q)) as (k & Hk & ->);
      [exact Hn' | unfold blvl; cbn; lia | destruct W as [<-|[<-|[]]]; cbn; lia |].
    assert (P : forall lvl, p_bool en n lvl (exists_toks q) = Ok (Ok NNone, [])).
    { intro lvl. rewrite <- (app_nil_r (exists_toks q)). now apply exists_bool; [| |left]. }
    cbn [length] in Hk. destruct k as [|[|k]]; try lia. unfold Tokens.K. cbn [bool_loop].
    destruct W as [<-|[<-|[]]]; cbn [String.eqb Ascii.eqb Bool.eqb Nat.leb andb]; rewrite P; cbn [bind];
      rewrite V2; reflexivity.
Qed.
Print Assumptions C37_and_exists_raises.

(** * Cases *)
Local Definition one_ : node := NSelect [NLit (LInt 1) integer] None None None None false [] no_qattrs.
Local Definition from_t : node :=
  NSelect [NLit (LInt 1) integer] (Some (NTable "t" None None)) None None None false [] no_qattrs.
Local Definition grouped : node :=
  NSelect [NLit (LInt 1) integer] (Some (NTable "t" None None)) (Some (column "a"))
    (Some (mkG [GSet [column "b"]] false)) None false [] no_qattrs.
Local Definition sub : node :=
  NSelect [NStar TRNone unknown] (Some (NTable "u" None None)) (Some (column "c")) None None false []
    (mkQ [] [] None (Some 3%Z)).
Local Lemma sub_fine : printable_query bare_env sub.
Proof. split; [split; [now apply (lexable_dec 5) | now apply (good_dec _ 5)] | reflexivity]. Qed.
Local Lemma no_ending : ending_fine bare_env [] None (Some 2%Z).
Proof. split; [intros x []|]. split; [exact Logic.I | cbn; lia]. Qed.
Example C37_where_case :
  fine bare_env from_t /\ printable_query bare_env sub /\ ending_fine bare_env [] None (Some 2%Z)
  /\ sql from_t default_opts ++ " WHERE " ++ exists_text default_opts sub ++ ending default_opts [] None (Some 2%Z)
     = "SELECT 1 FROM ""t"" WHERE EXISTS (SELECT * FROM ""u"" WHERE ""c"" LIMIT 3) LIMIT 2"
  /\ to_sql default_opts (finished [] None (Some 2%Z) from_t) = Ok "SELECT 1 FROM ""t"" LIMIT 2".
Proof.
  split; [split; [now apply (lexable_dec 5) | now apply (good_dec _ 5)]|].
  split; [apply sub_fine|]. split; [apply no_ending|]. vm_compute; split; reflexivity.
Qed.
Example C37_having_case :
  fine bare_env grouped
  /\ sql grouped default_opts ++ " HAVING " ++ exists_text default_opts sub
     = "SELECT 1 FROM ""t"" WHERE ""a"" GROUP BY ""b"" HAVING EXISTS (SELECT * FROM ""u"" WHERE ""c"" LIMIT 3)".
Proof.
  split; [split; [now apply (lexable_dec 5) | now apply (good_dec _ 5)]|]. vm_compute; reflexivity.
Qed.
Example C37_from_case :
  fine bare_env one_ /\ no_with_query bare_env sub
  /\ query_from_sql bare_env "SELECT 1 FROM ((SELECT * FROM ""u"" WHERE ""c"" LIMIT 3))" = Ok one_
  /\ query_from_sql bare_env "(SELECT * FROM ""u"" WHERE ""c"" LIMIT 3)" = Ok NNone.
Proof.
  split; [split; [now apply (lexable_dec 5) | now apply (good_dec _ 5)]|].
  split; [split; [apply sub_fine | reflexivity]|]. vm_compute; split; reflexivity.
Qed.
Example C37_raises_case :
  fine_expr bare_env (column "a")
  /\ expression_from_sql bare_env "NOT EXISTS (SELECT 1)" = Err TypeError
  /\ expression_from_sql bare_env "EXISTS (SELECT 1) AND (""a"")" = Err ValueError
  /\ expression_from_sql bare_env "(""a"") OR EXISTS (SELECT 1)" = Err ValueError.
Proof.
  split; [split; [split; [now apply (lexable_dec 5) | now apply (good_dec _ 5)] | reflexivity]|].
  vm_compute; repeat split; reflexivity.
Qed.
(** Hence a query and the same query with another condition are read as the same
    object, also in other places that take an optional expression. *)
Theorem C37_same_object_refuted :
  query_from_sql bare_env "SELECT 1 WHERE EXISTS (TABLE a)" = query_from_sql bare_env "SELECT 1"
  /\ query_from_sql bare_env "SELECT COUNT(*) FILTER (WHERE EXISTS (TABLE a))"
     = query_from_sql bare_env "SELECT COUNT(*)"
  /\ query_from_sql bare_env "SELECT CASE EXISTS (TABLE a) WHEN x THEN 1 END"
     = query_from_sql bare_env "SELECT CASE WHEN x THEN 1 END"
  /\ query_from_sql bare_env "SELECT 1 FETCH FIRST 2 ROWS ONLY" = query_from_sql bare_env "SELECT 1"
  /\ is_ok (query_from_sql bare_env "SELECT 1") = true
  /\ is_ok (query_from_sql bare_env "SELECT COUNT(*)") = true
  /\ is_ok (query_from_sql bare_env "SELECT CASE WHEN x THEN 1 END") = true.
Proof. vm_compute; repeat split; reflexivity. Qed.
Print Assumptions C37_same_object_refuted.
