(** Facts about the query parser, part 1: what may follow the parts of a query,
    and relations. *)
From Coq Require Import String Ascii List ZArith NArith Bool Lia Arith.
From Verif Require Import PyStr StrFacts Types Inference Lexer LexFacts TypeParser TypeFacts TypeRoundTrip
  Functions FunctionFacts Ast Sql Parser Tokens ReadsFacts ParseBase ParseParts ParseExpr ParsePrim ParseForms.
Import ListNotations.
Open Scope nat_scope.
Open Scope string_scope.
Open Scope list_scope.

(** * The clause that comes next

    1 FROM, 2 WHERE, 3 GROUP, 4 HAVING, 5 WINDOW, 6 ORDER, 7 OFFSET, 8 LIMIT or FETCH,
    9 the end of the query, 10 a set operator, 0 anything else. *)
Definition rank (ts : list token) : nat :=
  match ts with
  | TKw k _ :: _ =>
      if String.eqb k "FROM" then 1
      else if String.eqb k "WHERE" then 2
      else if String.eqb k "GROUP" then 3
      else if String.eqb k "HAVING" then 4
      else if String.eqb k "WINDOW" then if clause_ahead ts then 5 else 0
      else if String.eqb k "ORDER" then 6
      else if String.eqb k "OFFSET" then if clause_ahead ts then 7 else 0
      else if String.eqb k "LIMIT" then if clause_ahead ts then 8 else 0
      else if String.eqb k "FETCH" then if clause_ahead ts then 8 else 0
      else if set_kw k then 10 else 0
  | _ => if qend ts then 9 else 0
  end.

(** What may follow a selected expression or a relation. *)
Record ender (ts : list token) : Prop := {
  en_lev : lev ts = 0;
  en_alias : p_alias ts = Ok (None, ts);
  en_dot : eat_sym "." ts = None;
  en_open : eat_sym "(" ts = None;
  en_star : eat_sym "*" ts = None;
  en_with : eat_kw "WITH" ts = None;
  en_sort : sort_end ts;
  en_cont : continues ts = false }.
Record clause_end (ts : list token) : Prop := {
  ce_ender : ender ts;
  ce_comma : eat_sym "," ts = None;
  ce_sample : eat_kw "TABLESAMPLE" ts = None;
  ce_join : join_ahead ts = false;
  ce_fetch : 8 < rank ts -> eat_kw "FETCH" ts = None;
  ce_rows : eat_rows ts = None;
  ce_set : forall t w r, ts = TKw w t :: r -> rank ts < 10 -> set_kw w = None }.

Lemma sort_end_of ts : lev ts = 0 -> eat_kw "ASC" ts = None -> eat_kw "DESC" ts = None ->
  eat_kw "NULLS" ts = None -> sort_end ts.
Proof. repeat split; auto. Qed.

Lemma continues_kw k t r :
  mem k ["AND"; "OR"; "NOT"; "IS"; "BETWEEN"; "IN"; "LIKE"] = false -> kw_lev k = 0 ->
  continues (TKw k t :: r) = false.
Proof.
  intros M L. unfold continues. rewrite M. cbn [orb]. destruct (at_zone _) eqn:E; [|reflexivity].
  apply at_zone_lev in E. cbn [lev] in E. congruence.
Qed.
Ltac ender_tac := constructor; [.. | repeat split | ]; try reflexivity; try assumption;
  try (apply continues_kw; reflexivity).
Ltac ends := constructor; [ender_tac | reflexivity | reflexivity | reflexivity | intros _; reflexivity | reflexivity |
  let E := fresh in intros ? ? ? E ?; first [discriminate E | injection E as <- _ _; reflexivity]].
Ltac set_ends := constructor; [ender_tac | reflexivity | reflexivity | reflexivity | intros _; reflexivity | reflexivity |
  let E := fresh in let L := fresh in intros ? ? ? E L; exfalso; cbn in L; lia].
Lemma rank_end ts : 1 <= rank ts -> clause_end ts.
Proof.
  intro H. assert (Q : forall u, qend u = true -> clause_end u).
  { clear. intros u H. destruct u as [|[k| | | | | | | | | | |s|c] r]; try discriminate H.
    - ends.
    - cbn [qend] in H. apply String.eqb_eq in H as ->.
      ends.
    - ends. }
  destruct ts as [|[k| | | | | | | | | | |s|c] r]; try (apply Q; reflexivity); try (cbn in H; lia).
  - cbn [rank] in H.
    destruct (String.eqb_spec k "FROM") as [->|_].
    { ends. }
    destruct (String.eqb_spec k "WHERE") as [->|_].
    { ends. }
    destruct (String.eqb_spec k "GROUP") as [->|_].
    { ends. }
    destruct (String.eqb_spec k "HAVING") as [->|_].
    { ends. }
    destruct (String.eqb_spec k "WINDOW") as [->|_].
    { destruct (clause_ahead _) eqn:E in H; [|lia].
      assert (p_alias (TKw "WINDOW" txt :: r) = Ok (None, TKw "WINDOW" txt :: r)) as A
        by (unfold p_alias; cbn [eat_kw String.eqb Ascii.eqb Bool.eqb]; now rewrite E).
      ends. }
    destruct (String.eqb_spec k "ORDER") as [->|_].
    { ends. }
    destruct (String.eqb_spec k "OFFSET") as [->|_].
    { destruct (clause_ahead _) eqn:E in H; [|lia].
      assert (p_alias (TKw "OFFSET" txt :: r) = Ok (None, TKw "OFFSET" txt :: r)) as A
        by (unfold p_alias; cbn [eat_kw String.eqb Ascii.eqb Bool.eqb]; now rewrite E).
      ends. }
    destruct (String.eqb_spec k "LIMIT") as [->|_].
    { destruct (clause_ahead _) eqn:E in H; [|lia].
      assert (p_alias (TKw "LIMIT" txt :: r) = Ok (None, TKw "LIMIT" txt :: r)) as A
        by (unfold p_alias; cbn [eat_kw String.eqb Ascii.eqb Bool.eqb]; now rewrite E).
      ends. }
    destruct (String.eqb_spec k "FETCH") as [->|_].
    { destruct (clause_ahead _) eqn:E in H; [|lia].
      assert (p_alias (TKw "FETCH" txt :: r) = Ok (None, TKw "FETCH" txt :: r)) as A
        by (unfold p_alias; cbn [eat_kw String.eqb Ascii.eqb Bool.eqb]; now rewrite E).
      constructor; [ender_tac | reflexivity | reflexivity | reflexivity | | reflexivity |].
      - intro L. exfalso. change (8 < if clause_ahead (TKw "FETCH" txt :: r) then 8 else 0) in L. rewrite E in L. lia.
      - intros ? ? ? X _. injection X as <- _ _. reflexivity. }
    unfold set_kw in H.
    destruct (String.eqb_spec k "INTERSECT") as [->|_]; [set_ends|].
    destruct (String.eqb_spec k "UNION") as [->|_]; [set_ends|].
    destruct (String.eqb_spec k "EXCEPT") as [->|_]; [set_ends|lia].
  - apply Q. cbn [rank] in H. destruct (qend _); [reflexivity | lia].
Qed.
Lemma ender_comma r : ender (TSym "," :: r).
Proof. ender_tac. Qed.
Lemma rank_kw k t r j : rank (TKw k t :: r) = j -> forall w, w <> k -> eat_kw w (TKw k t :: r) = None.
Proof. intros _ w N. cbn [eat_kw]. destruct (String.eqb_spec k w); congruence. Qed.
(** A clause is absent if a later one comes next. *)
Definition clause_rank (w : string) : nat := rank [TKw w w; TInt "1"].
Lemma rank_absent ts w j :
  In (w, j) [("FROM", 1); ("WHERE", 2); ("GROUP", 3); ("HAVING", 4); ("WINDOW", 5); ("ORDER", 6);
             ("OFFSET", 7); ("LIMIT", 8)] ->
  j < rank ts -> eat_kw w ts = None.
Proof.
  intros I H. destruct ts as [|[k| | | | | | | | | | |s|c] r]; try reflexivity. cbn [eat_kw].
  destruct (String.eqb_spec k w) as [->|]; [|reflexivity]. exfalso.
  cbn [In] in I. repeat (destruct I as [[= <- <-]|I]; [cbn [rank String.eqb Ascii.eqb Bool.eqb] in H;
    repeat match type of H with context [if ?b then _ else _] => destruct b end; lia|]). contradiction.
Qed.

(** * Names *)

(** The text between the quotes is what is read back. *)
Definition inner (q : ascii) (s : string) : bool :=
  String.eqb (strip q (String q (s ++ String q ""))) s.
Lemma strip_inner q s : inner q s = true -> strip q (String q (s ++ String q "")) = s.
Proof. apply String.eqb_eq. Qed.
Lemma visit_qid n : inner dquote n = true -> visit_ident (IdQuoted (quote_identifier n)) = Ok n.
Proof. intro H. cbn [visit_ident]. unfold quote_identifier. now rewrite (strip_inner _ _ H). Qed.

Definition qidents (l : list string) : list pident := map (fun n => IdQuoted (quote_identifier n)) l.
Lemma visit_qidents l : forallb (inner dquote) l = true -> v_names (qidents l) = Ok l.
Proof.
  unfold v_names, qidents. induction l as [|n l IH]; intro H; [reflexivity|]. cbn [forallb] in H.
  apply andb_true_iff in H as [H1 H2]. cbn [map each]. rewrite (visit_qid n H1), (IH H2). reflexivity.
Qed.
Definition dots (l : list string) : list token := tjoin [TSym "."] (map (fun n => [qid n]) l).
Lemma dots_cons x y l : dots (x :: y :: l) = qid x :: TSym "." :: dots (y :: l).
Proof. reflexivity. Qed.
Lemma dots_tail x l k rest : eat_sym "." rest = None -> length (dots (x :: l)) <= k ->
  p_qname_tail k (tl (dots (x :: l)) ++ rest) = (qidents l, rest).
Proof.
  intro E. revert x k. induction l as [|y l IH]; intros x k Hk.
  - destruct k as [|k]; cbn [app tl dots map tjoin p_qname_tail qidents]; [reflexivity|]. now rewrite E.
  - rewrite dots_cons in *. cbn [tl app]. cbn [length] in Hk. destruct k as [|k]; [lia|].
    cbn [p_qname_tail]. rewrite eat_sym_same. destruct (dots (y :: l)) as [|t d] eqn:D; [destruct l; discriminate|].
    assert (t = qid y) as -> by (destruct l; injection D; auto). cbn [app p_ident qid].
    specialize (IH y k). rewrite D in IH. cbn [tl length] in *. rewrite IH by lia. reflexivity.
Qed.
Lemma qname_ok x l rest : eat_sym "." rest = None ->
  p_qname (dots (x :: l) ++ rest) = Ok (qidents (x :: l), rest).
Proof.
  intro E. unfold p_qname. pose proof (dots_tail x l) as T.
  destruct (dots (x :: l)) as [|t d] eqn:D; [destruct l; discriminate|].
  assert (t = qid x) as -> by (destruct l; injection D; auto). cbn [app p_ident qid bind tl] in *.
  rewrite T; [reflexivity | exact E |]. cbn [length]. rewrite app_length. lia.
Qed.
Lemma columns_ok l rest : l <> [] -> p_columns (paren (words l) ++ rest) = Ok (map IdUnquoted l, rest).
Proof.
  intro N. unfold p_columns, paren. cbn [app]. rewrite eat_sym_same. cbn [need bind]. rewrite <- app_assoc.
  rewrite idents_ok by (auto; reflexivity). cbn [bind app]. rewrite eat_sym_same. reflexivity.
Qed.
Definition columns_text (l : list string) : list token :=
  match l with [] => [] | _ => paren (words l) end.
Lemma columns_opt_ok l rest : eat_sym "(" rest = None ->
  p_columns_opt (columns_text l ++ rest) = Ok (map IdUnquoted l, rest).
Proof.
  intro E. unfold columns_text, p_columns_opt. destruct l as [|x l]; [cbn [app]; now rewrite E|].
  rewrite columns_ok by discriminate. reflexivity.
Qed.

(** * Relations *)
Definition pp_of en n := p_relation_primary (p_bool en n 0) (p_query en n) (p_relation en n).
Definition pa_of en n := p_aliased (p_bool en n 0) (p_query en n) (p_relation en n).
Definition ps_of en n := p_sampled (p_bool en n 0) (p_query en n) (p_relation en n).
Definition loop_of en n := rel_loop (p_bool en n 0) (ps_of en n) (p_relation en n).

(** Level 3: may have an alias; 2: may be sampled; 1: the right side of a cross
    or natural join; 0: any. *)
Record Rl (en : env) (c : nat) (r : node) (ts : list token) : Prop := {
  rl_some : r <> NNone;
  rl_first : match ts with
             | TId _ :: _ | TQuoted _ :: _ | TSym _ :: _ => True
             | TKw k _ :: _ => mem k ["UNNEST"; "LATERAL"] = true
             | _ => False
             end;
  rl_prim : c = 3 -> forall n rest, 8 * length ts <= n ->
    eat_sym "." rest = None -> eat_kw "WITH" rest = None -> pp_of en n (ts ++ rest) = Ok (Ok r, rest);
  rl_alias : 2 <= c -> forall n rest, 8 * length ts <= n -> ender rest ->
    pa_of en n (ts ++ rest) = Ok (Ok r, rest);
  rl_samp : 1 <= c -> forall n rest, 8 * length ts <= n -> ender rest ->
    eat_kw "TABLESAMPLE" rest = None -> ps_of en n (ts ++ rest) = Ok (Ok r, rest);
  rl_rel : forall n rest, 8 * length ts <= n -> ender rest -> eat_kw "TABLESAMPLE" rest = None ->
    exists k, length rest < k /\ p_relation en (S n) (ts ++ rest) = loop_of en n k (Ok r) rest }.

Lemma loop_stop en n k acc rest : 0 < k -> join_ahead rest = false -> loop_of en n k acc rest = Ok (acc, rest).
Proof. intros Hk J. destruct k as [|k]; [lia|]. unfold loop_of. cbn [rel_loop]. now rewrite J. Qed.
Lemma rl_read en c r ts n rest :
  Rl en c r ts -> 8 * length ts < n -> ender rest -> eat_kw "TABLESAMPLE" rest = None ->
  join_ahead rest = false -> p_relation en n (ts ++ rest) = Ok (Ok r, rest).
Proof.
  intros R Hn E T J. destruct n as [|n]; [lia|].
  destruct (rl_rel _ _ _ _ R n rest) as (k & Hk & ->); auto; [lia|]. apply loop_stop; auto. lia.
Qed.

Definition rel_starts (ts : list token) : Prop :=
  match ts with
  | TId _ :: _ | TQuoted _ :: _ | TSym _ :: _ => True
  | TKw k _ :: _ => mem k ["UNNEST"; "LATERAL"] = true
  | _ => False
  end.
Lemma mk_samp en r ts :
  r <> NNone -> rel_starts ts ->
  (forall n rest, 8 * length ts <= n -> ender rest -> eat_kw "TABLESAMPLE" rest = None ->
     ps_of en n (ts ++ rest) = Ok (Ok r, rest)) ->
  Rl en 1 r ts.
Proof.
  intros N F H. constructor; auto; try lia.
  intros n rest Hn E T. change (p_relation en (S n) (ts ++ rest)) with
    (relation_body (p_bool en n 0) (p_query en n) (p_relation en n) (ts ++ rest)).
  unfold relation_body. fold (ps_of en n). rewrite H; auto. cbn [bind]. fold (loop_of en n).
  exists (S (length rest)). split; [lia | reflexivity].
Qed.
Lemma mk_alias en r ts :
  r <> NNone -> rel_starts ts ->
  (forall n rest, 8 * length ts <= n -> ender rest -> pa_of en n (ts ++ rest) = Ok (Ok r, rest)) ->
  Rl en 2 r ts.
Proof.
  intros N F H. assert (H1 : Rl en 1 r ts).
  { apply mk_samp; auto. intros n rest Hn E T. unfold ps_of, p_sampled. fold (pa_of en n).
    rewrite H; auto. cbn [bind]. rewrite T. destruct (clause_ahead rest); reflexivity. }
  constructor; auto; try lia. - intros _. apply H1. lia. - apply H1.
Qed.
Lemma mk_rel_prim en r ts :
  r <> NNone -> rel_starts ts ->
  (forall n rest, 8 * length ts <= n -> eat_sym "." rest = None -> eat_kw "WITH" rest = None ->
     pp_of en n (ts ++ rest) = Ok (Ok r, rest)) ->
  Rl en 3 r ts.
Proof.
  intros N F H. assert (H1 : Rl en 2 r ts).
  { apply mk_alias; auto. intros n rest Hn E. unfold pa_of, p_aliased. fold (pp_of en n).
    rewrite H by (auto; apply E). cbn [bind]. rewrite (en_alias _ E). reflexivity. }
  constructor; auto; try lia.
  - intros _. apply H1. lia.
  - intros _. apply H1. lia.
  - apply H1.
Qed.

Definition made (e : node) : Prop := exists t, check e = Ok t.
Lemma made_mk e : made e -> mk e = Ok e.
Proof. intros [t H]. unfold mk. now rewrite H. Qed.

Lemma Rl_table en n sc ca :
  made (NTable n sc ca) -> (ca <> None -> sc <> None) ->
  forallb (inner dquote) (drop_none [ca; sc; Some n]) = true ->
  Rl en 3 (NTable n sc ca) (chain_toks [ca; sc; Some n]).
Proof.
  intros T C I. unfold chain_toks. fold (dots (drop_none [ca; sc; Some n])).
  assert (exists x l, drop_none [ca; sc; Some n] = x :: l) as (x & l & D)
    by (destruct ca, sc; cbn; eauto).
  assert (V : v_table (qidents (x :: l)) = Ok (NTable n sc ca)).
  { unfold v_table. rewrite <- D, visit_qidents by exact I. cbn [bind]. rewrite <- (made_mk _ T).
    destruct ca as [ca|], sc as [sc|]; try reflexivity. exfalso; apply C; congruence. }
  rewrite D. assert (S : exists d, dots (x :: l) = qid x :: d) by (destruct l; eexists; reflexivity).
  destruct S as [d S].
  apply mk_rel_prim; [discriminate | rewrite S; exact Logic.I |].
  intros m rest _ E _. unfold pp_of, p_relation_primary. pose proof (qname_ok x l rest E) as Q.
  rewrite S in *. cbn [app qid] in *. rewrite Q. cbn [bind]. now rewrite V.
Qed.
Lemma Rl_query en q tq : Rq en q tq -> q <> NNone -> Rl en 3 q (paren tq).
Proof.
  intros [F Q] N. apply mk_rel_prim; [exact N | exact Logic.I |].
  intros n rest Hn _ _. unfold paren in *. cbn [length] in Hn. rewrite app_length in Hn. cbn [length] in Hn.
  cbn [app]. rewrite <- app_assoc. cbn [app]. unfold pp_of, p_relation_primary.
  change (String.eqb "(" "(") with true. cbn iota. rewrite Q by (reflexivity || lia). cbn [bind].
  rewrite eat_sym_same. reflexivity.
Qed.
Lemma Rl_lateral en q tq : Rq en q tq -> made (NLateral q) -> Rl en 3 (NLateral q) (K "LATERAL" :: paren tq).
Proof.
  intros [F Q] T. apply mk_rel_prim; [discriminate | reflexivity |].
  intros n rest Hn _ _. unfold paren in *. cbn [length] in Hn. rewrite app_length in Hn. cbn [length] in Hn.
  unfold pp_of, p_relation_primary, p_parenthesised. cbn [app K String.eqb Ascii.eqb Bool.eqb andb].
  rewrite eat_sym_same. cbn [need bind]. rewrite <- app_assoc. cbn [app].
  rewrite Q by (reflexivity || lia). cbn [bind].
  rewrite eat_sym_same. cbn [need bind]. now rewrite (made_mk _ T).
Qed.
Lemma Rl_unnest en l tss : Exs en l tss -> l <> [] -> made (NUnnest l false) ->
  Rl en 3 (NUnnest l false) (K "UNNEST" :: paren (commas tss)).
Proof.
  intros H N T. apply mk_rel_prim; [discriminate | reflexivity |].
  intros n rest Hn _ W. unfold paren in *. cbn [length] in Hn. rewrite app_length in Hn. cbn [length] in Hn.
  unfold pp_of, p_relation_primary, p_parenthesised. cbn [app K String.eqb Ascii.eqb Bool.eqb andb].
  rewrite eat_sym_same. cbn [need bind]. rewrite <- app_assoc. cbn [app].
  rewrite (exprs_ok _ _ l tss); [| reflexivity | apply Rx_Rd; apply ex_rxs; auto; lia | exact N | reflexivity].
  cbn [bind]. rewrite eat_sym_same. cbn [need bind]. rewrite W. now rewrite (made_mk _ T).
Qed.
Lemma Rl_aliased en r ts a cols :
  Rl en 3 r ts -> inner dquote a = true -> made (NAliasedRel r a cols) ->
  Rl en 2 (NAliasedRel r a cols) (ts ++ qid a :: columns_text cols).
Proof.
  intros R I T. apply mk_alias; [discriminate | |].
  - pose proof (rl_first _ _ _ _ R) as F. destruct ts; [contradiction | exact F].
  - intros n rest Hn E. rewrite app_length in Hn. cbn [length] in Hn. rewrite <- app_assoc. cbn [app].
    unfold pa_of, p_aliased. fold (pp_of en n). rewrite (rl_prim _ _ _ _ R) by (reflexivity || lia).
    cbn [bind]. change (p_alias (qid a :: columns_text cols ++ rest))
      with (Ok (Some (IdQuoted (quote_identifier a)), columns_text cols ++ rest)). cbn [bind].
    rewrite columns_opt_ok by apply E. cbn [bind]. unfold v_aliased_rel. cbn [bind].
    rewrite (visit_qid a I). cbn [bind]. unfold v_names. rewrite visit_idents. cbn [bind].
    now rewrite (made_mk _ T).
Qed.
(** The query rule fails on a relation that does not start with '('. *)
Definition no_paren (ts : list token) : bool := match ts with TSym _ :: _ => false | _ => true end.
Lemma query_of_rel en n ts rest : 4 <= n -> rel_starts ts -> no_paren ts = true ->
  p_query en n (ts ++ rest) = Err SyntaxErr.
Proof.
  intros Hn S P. destruct n as [|[|[|[|n]]]]; try lia.
  destruct ts as [|[k| | | | | | | | | | |s|c] r]; try contradiction; try discriminate P.
  - cbn [rel_starts] in S. unfold mem in S. cbn [existsb] in S. rewrite !orb_true_iff, !String.eqb_eq in S.
    destruct S as [->|[->|S]]; [reflexivity | reflexivity | discriminate].
  - reflexivity.
  - reflexivity.
Qed.
Lemma Rl_paren en c r ts : Rl en c r ts -> no_paren ts = true -> Rl en 3 r (paren ts).
Proof.
  intros R P. apply mk_rel_prim; [apply R | exact Logic.I |].
  intros n rest Hn _ _. unfold paren in *. cbn [length] in Hn. rewrite app_length in Hn. cbn [length] in Hn.
  cbn [app]. rewrite <- app_assoc. cbn [app]. unfold pp_of, p_relation_primary.
  change (String.eqb "(" "(") with true. cbn iota.
  rewrite query_of_rel; [| lia | exact (rl_first _ _ _ _ R) | exact P]. cbn [bind orelse].
  rewrite (rl_read en c r ts); [cbn [bind]; rewrite eat_sym_same; reflexivity | exact R | lia | | reflexivity | reflexivity].
  apply rank_end. cbn. lia.
Qed.
Lemma Rl_sample en r ts st p tp c :
  Rl en c r ts -> 2 <= c -> Exo en p tp -> made (NSample r st p) ->
  Rl en 1 (NSample r st p) (ts ++ K "TABLESAMPLE" :: K (sample_text st) :: paren tp).
Proof.
  intros R Hc P T. apply mk_samp; [discriminate | |].
  - pose proof (rl_first _ _ _ _ R) as F. destruct ts; [contradiction | exact F].
  - intros n rest Hn E _. rewrite app_length in Hn. unfold paren in *. cbn [length] in Hn.
    rewrite app_length in Hn. cbn [length] in Hn.
    rewrite <- app_assoc. cbn [app]. rewrite <- app_assoc. cbn [app].
    unfold ps_of, p_sampled. fold (pa_of en n).
    rewrite (rl_alias _ _ _ _ R Hc); [| lia |].
    2:{ unfold K; destruct st; ender_tac. }
    cbn [bind]. set (q := tp ++ TSym ")" :: rest).
    assert (clause_ahead (K "TABLESAMPLE" :: K (sample_text st) :: TSym "(" :: q) = true) as ->
      by (destruct st; reflexivity).
    rewrite eat_kw_same. cbn [K]. unfold p_parenthesised. rewrite eat_sym_same. cbn [need bind]. subst q.
    rewrite (Exo_Rd en p tp n P) by (reflexivity || lia). cbn [bind]. rewrite eat_sym_same. cbn [need bind].
    assert (v_sample_type (sample_text st) = Ok st) as -> by (destruct st; reflexivity).
    cbn [bind]. now rewrite (made_mk _ T).
Qed.

Definition crit_rel (en : env) (x : jcrit node) (y : jcrit (list token)) : Prop :=
  match x, y with
  | JUsing l, JUsing l' => l = l' /\ l <> [] /\ forallb plain l = true
  | JOn e, JOn t => Exo en e t
  | _, _ => False
  end.
Definition crit_text (y : jcrit (list token)) : list token := crit_toks (fun t => t) y.
Lemma words_plain l : forallb plain l = true -> commas (map (fun c => [word_token c]) l) = words l.
Proof.
  intro H. unfold words. f_equal. apply map_ext_in. intros n I.
  rewrite plain_token; [reflexivity|]. rewrite forallb_forall in H. auto.
Qed.
Lemma crit_ok en n x y rest :
  crit_rel en x y -> 8 * length (crit_text y) <= n -> lev rest = 0 ->
  p_criteria (p_bool en n 0) (crit_text y ++ rest) = Ok (Ok x, rest).
Proof.
  destruct x as [l|e], y as [l'|t]; cbn [crit_rel]; try contradiction.
  - intros (<- & N & P) _ L. unfold crit_text. cbn [crit_toks app]. unfold p_criteria.
    cbn [eat_kw K String.eqb Ascii.eqb Bool.eqb need bind]. rewrite (words_plain l P).
    rewrite columns_ok by exact N. cbn [bind]. unfold v_names. now rewrite visit_idents.
  - intros E Hn L. unfold crit_text in *. cbn [crit_toks app length] in *. unfold p_criteria.
    rewrite eat_kw_same. rewrite (Exo_Rd en e t n E) by (auto; lia). reflexivity.
Qed.
Lemma crit_start y rest : ender (crit_text y ++ rest) /\ join_ahead (crit_text y ++ rest) = false
  /\ eat_kw "TABLESAMPLE" (crit_text y ++ rest) = None.
Proof.
  unfold crit_text. destruct y; cbn [crit_toks app]; unfold K; (split; [ender_tac|split; reflexivity]).
Qed.

Lemma join_start jt (nat : bool) r : ender ((if nat then [K "NATURAL"] else []) ++ join_toks jt ++ r)
  /\ eat_kw "TABLESAMPLE" ((if nat then [K "NATURAL"] else []) ++ join_toks jt ++ r) = None.
Proof.
  destruct jt, nat; cbn [join_toks app]; unfold K; (split; [ender_tac|reflexivity]).
Qed.

Lemma Rl_join_on en c1 c2 l tl r tr jt x y :
  Rl en c1 l tl -> Rl en c2 r tr -> jt <> JCross -> crit_rel en x y ->
  made (NJoin l r jt false (Some x)) ->
  Rl en 0 (NJoin l r jt false (Some x)) (tl ++ join_toks jt ++ K "JOIN" :: tr ++ crit_text y).
Proof.
  intros L R J C T. constructor; try lia; [discriminate | |].
  { pose proof (rl_first _ _ _ _ L) as F. destruct tl; [contradiction | exact F]. }
  intros n rest Hn E TS. rewrite !app_length in Hn. cbn [length] in Hn. rewrite app_length in Hn.
  assert (1 <= length (join_toks jt)) by (destruct jt; cbn; lia).
  rewrite <- !app_assoc. cbn [app].
  destruct (join_start jt false (K "JOIN" :: (tr ++ crit_text y) ++ rest)) as [E1 T1]. cbn [app] in E1, T1.
  destruct (rl_rel _ _ _ _ L n _ ltac:(lia) E1 T1) as (k & Hk & ->). clear E1 T1.
  destruct k as [|k]; [lia|]. exists k. split.
  { rewrite !app_length in Hk. cbn [length] in Hk. rewrite !app_length in Hk. lia. }
  unfold loop_of at 1. cbn [rel_loop]. fold (loop_of en n).
  assert (G : (let* (b, r3) := p_relation en n ((tr ++ crit_text y) ++ rest) in
               let* (c, r4) := p_criteria (p_bool en n 0) r3 in
               loop_of en n k (v_join (Ok l) b jt false (Some c)) r4)
              = loop_of en n k (Ok (NJoin l r jt false (Some x))) rest).
  { rewrite <- app_assoc. destruct (crit_start y rest) as (E1 & J1 & T1).
    rewrite (rl_read en c2 r tr n); auto; [|lia]. cbn [bind].
    rewrite (crit_ok en n x y rest C); [| lia | apply E]. cbn [bind]. unfold v_join. cbn [bind seq_opt].
    now rewrite (made_mk _ T). }
  destruct jt; try congruence; exact G.
Qed.
Lemma Rl_join_plain en c1 c2 l tl r tr jt nat :
  Rl en c1 l tl -> Rl en c2 r tr -> 1 <= c2 ->
  ((jt = JCross /\ nat = false) \/ (jt <> JCross /\ nat = true)) ->
  made (NJoin l r jt nat None) ->
  Rl en 0 (NJoin l r jt nat None)
     (tl ++ (if nat then [K "NATURAL"] else []) ++ join_toks jt ++ K "JOIN" :: tr).
Proof.
  intros L R Hc J T. constructor; try lia; [discriminate | |].
  { pose proof (rl_first _ _ _ _ L) as F. destruct tl; [contradiction | exact F]. }
  intros n rest Hn E TS. rewrite !app_length in Hn. cbn [length] in Hn.
  rewrite <- !app_assoc. cbn [app].
  destruct (join_start jt nat (K "JOIN" :: tr ++ rest)) as [E1 T1].
  destruct (rl_rel _ _ _ _ L n _ ltac:(lia) E1 T1) as (k & Hk & ->). clear E1 T1.
  destruct k as [|k]; [lia|]. exists k. split.
  { rewrite !app_length in Hk. cbn [length] in Hk. rewrite !app_length in Hk. lia. }
  unfold loop_of at 1. cbn [rel_loop]. fold (loop_of en n). fold (ps_of en n).
  assert (G : (let* (b, r3) := ps_of en n (tr ++ rest) in
               loop_of en n k (v_join (Ok l) b jt nat None) r3)
              = loop_of en n k (Ok (NJoin l r jt nat None)) rest).
  { rewrite (rl_samp _ _ _ _ R Hc); auto; [|lia]. cbn [bind]. unfold v_join. cbn [bind seq_opt].
    now rewrite (made_mk _ T). }
  destruct J as [[-> ->]|[J ->]]; [exact G|].
  destruct jt; try congruence; exact G.
Qed.
