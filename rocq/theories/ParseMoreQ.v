(** Facts about the query parser: ways to write relations and queries that the
    printer never uses. *)
From Coq Require Import String Ascii List ZArith NArith Bool Lia Arith.
From Verif Require Import PyStr StrFacts Types Inference Lexer LexFacts TypeParser TypeFacts TypeRoundTrip
  Functions FunctionFacts Ast Sql Parser Tokens ReadsFacts ParseBase ParseParts ParseExpr ParsePrim ParseForms ParseMain
  ParseRel ParseQuery Grammar ParseNone ParseMore.
Import ListNotations.
Open Scope nat_scope.
Open Scope string_scope.
Open Scope list_scope.

(** * Select items *)
Lemma alias_read a ts r : alias a ts -> p_alias (ts ++ r) = Ok (Some (IdUnquoted a), r).
Proof. intros []; reflexivity. Qed.
Lemma alias_stops a ts r : alias a ts ->
  lev (ts ++ r) = 0 /\ eat_sym "." (ts ++ r) = None /\ eat_kw "WITH" (ts ++ r) = None.
Proof. intros []; repeat split; reflexivity. Qed.
Lemma Si_alias en x tx a ta :
  Exo en x tx -> alias a ta -> made (NAliased x a) -> Si en (NAliased x a) (tx ++ ta).
Proof.
  intros E A T. pose proof E as [c X]. pose proof (ex_shape _ _ _ _ X) as S.
  pose proof (shape_weak _ 0 _ S ltac:(lia) ltac:(lia)) as S0. constructor.
  - intro k. rewrite <- app_assoc. now apply quant_none.
  - intros n rest Hn R. rewrite app_length in Hn. rewrite <- app_assoc.
    unfold p_select_item. rewrite not_sym by (auto; reflexivity).
    destruct (alias_stops a ta rest A) as (L & D & _).
    rewrite (Exo_Rd en x tx n E) by (exact L || lia). cbn [bind]. rewrite D. cbn iota.
    rewrite (alias_read a ta rest A). cbn [bind]. unfold v_select_single. cbn [bind visit_ident]. now rewrite (made_mk _ T).
Qed.
Lemma Si_star_names en n l : l <> [] -> made (NAliasedStar (NStar (TRStr n) unknown) l) ->
  Si en (NAliasedStar (NStar (TRStr n) unknown) l) (TId n :: TSym "." :: TSym "*" :: K "AS" :: paren (words l)).
Proof.
  intros N T. constructor; [reflexivity|]. intros m rest Hm R. cbn [length] in Hm.
  do 4 (destruct m as [|m]; [lia|]). cbn [app].
  change (p_select_item (p_bool en (S (S (S (S m)))) 0) (p_primary en (S (S (S (S m)))))
            (TId n :: TSym "." :: TSym "*" :: K "AS" :: paren (words l) ++ rest))
    with (let* (l, r4) := p_columns (paren (words l) ++ rest) in
          Ok (v_select_all (Ok (NField n TRNone unknown)) (Some l), r4)).
  rewrite columns_ok by exact N. cbn [bind]. unfold v_select_all. cbn [bind].
  change (mk (NStar (TRStr n) unknown)) with (Ok (NStar (TRStr n) unknown)). cbn [bind].
  unfold v_names. rewrite visit_idents. cbn [bind]. now rewrite (made_mk _ T).
Qed.

(** * Grouping *)
Record Gs (en : env) (l : list node) (ts : list token) : Prop := {
  gs_first : match ts with TKw k _ :: _ => starter (TKw k k) = true | [] => False | _ => True end;
  gs_quant : forall k, p_group_quant (ts ++ k) = (None, ts ++ k);
  gs_starts : forall k, starts_expr (ts ++ k) = true;
  gs_valid : all_ok valid l = Ok tt;
  gs_read : forall n rest, 8 * length ts + 4 <= n -> gend rest ->
    p_gset (p_bool en n 0) (ts ++ rest) = Ok (Ok l, rest) }.
Lemma Gs_single en e ts : Exo en e ts -> no_open ts = true -> Gs en [e] ts.
Proof.
  intros X P. pose proof X as [c E]. pose proof (ex_shape _ _ _ _ E) as S. constructor.
  - destruct S as [S _ _ _]. destruct ts as [|[]]; try contradiction; try exact Logic.I. exact S.
  - intro k. apply group_quant_none. apply (shape_weak c); [exact S | lia | lia].
  - intro k. exact (Ex_starts en c e ts k E).
  - apply (Exs_valid en [e] [ts]). repeat constructor. exact X.
  - intros n rest Hn G. assert (H : gset_ex en [e] [ts]) by (split; [repeat constructor; exact X | exact P]).
    exact (gset_ok en n [e] [ts] rest H Hn G).
Qed.
Lemma Gs_list en l tss : Exs en l tss -> Gs en l (paren (commas tss)).
Proof.
  intros X. constructor; try reflexivity; [eapply Exs_valid; exact X |].
  intros n rest Hn [L C]. unfold paren in *. cbn [app length] in *. rewrite app_length in Hn. cbn [length] in Hn.
  unfold p_gset. rewrite eat_sym_same, <- app_assoc. cbn [app].
  rewrite (exprs_opt_ok en n l); [| exact X | lia]. cbn [bind]. rewrite eat_sym_same. cbn [need bind].
  rewrite C. reflexivity.
Qed.
Record Gr (en : env) (g : group node) (ts : list token) : Prop := {
  gr_quant : forall k, p_group_quant (ts ++ k) = (None, ts ++ k);
  gr_all : forall k, p_group_quant (TKw "ALL" "ALL" :: ts ++ k) = (Some "ALL", ts ++ k);
  gr_distinct : forall k, p_group_quant (K "DISTINCT" :: ts ++ k) = (Some "DISTINCT", ts ++ k);
  gr_valid : group_ok valid g = Ok tt;
  gr_read : forall n rest, 8 * length ts + 4 <= n -> gend rest ->
    p_group (p_bool en n 0) (ts ++ rest) = Ok (Ok g, rest) }.
Lemma quant_distinct r : p_group_quant (K "DISTINCT" :: r) = (Some "DISTINCT", r).
Proof. destruct r as [|[] r]; reflexivity. Qed.
Lemma quant_all r : starts_expr r = true -> p_group_quant (TKw "ALL" "ALL" :: r) = (Some "ALL", r).
Proof.
  intro S. assert (P : p_quant (TKw "ALL" "ALL" :: r) = (Some "ALL", r)).
  { cbn [p_quant String.eqb Ascii.eqb Bool.eqb]. rewrite S. reflexivity. }
  destruct r as [|[k x| | | | | | | | | | |s|c] r]; try exact P. cbn [p_group_quant].
  destruct (String.eqb "ALL" "ALL" && mem k ["ROLLUP"; "CUBE"])%bool; [reflexivity | exact P].
Qed.
Lemma Gr_set en l ts : Gs en l ts -> Gr en (GSet l) ts.
Proof.
  intros [F Q S V R]. constructor; auto.
  - intro k. apply quant_all, S.
  - intro k. apply quant_distinct.
  - intros n rest Hn G.
    assert (P : p_group (p_bool en n 0) (ts ++ rest)
      = (let* (l, r) := p_gset (p_bool en n 0) (ts ++ rest) in Ok (v_group (@GSet node) l, r))).
    { destruct ts as [|[k x| | | | | | | | | | |s|c] ts]; try contradiction; try reflexivity.
      cbn [app]. now apply group_kw. }
    rewrite P, R by assumption. cbn [bind]. unfold v_group. cbn [bind group_ok]. rewrite V. reflexivity.
Qed.
Lemma Gr_many en (cube : bool) l tss :
  Exs en l tss -> l <> [] ->
  Gr en (if cube then GCube l else GRollup l) (K (if cube then "CUBE" else "ROLLUP") :: paren (commas tss)).
Proof.
  intros X N.
  assert (V : group_ok valid (if cube then GCube l else GRollup l) = Ok tt).
  { pose proof (Exs_valid en l tss X) as V. destruct cube; cbn [group_ok]; rewrite V; destruct l; congruence || reflexivity. }
  constructor; try exact V.
  - intro k. destruct cube; reflexivity.
  - intro k. destruct cube; reflexivity.
  - intro k. apply quant_distinct.
  - intros n rest Hn G. unfold paren in *. cbn [app length] in *. rewrite app_length in Hn. cbn [length] in Hn.
    destruct cube; unfold p_group; cbn [app K String.eqb Ascii.eqb Bool.eqb eat_kw]; unfold p_parenthesised;
      rewrite eat_sym_same; cbn [need bind]; rewrite <- app_assoc; cbn [app];
      (rewrite (exprs_opt_ok en n l); [| exact X | lia]); cbn [bind]; rewrite eat_sym_same; cbn [need bind];
      unfold v_group; cbn [bind]; rewrite V; reflexivity.
Qed.
Lemma Gr_sets en t ll tss :
  word "SETS" t -> Forall2 (Gs en) ll tss -> ll <> [] -> Gr en (GSets ll) (K "GROUPING" :: t :: paren (commas tss)).
Proof.
  intros W F N.
  assert (V : group_ok valid (GSets ll) = Ok tt).
  { cbn [group_ok]. rewrite all_ok_ok.
    - destruct ll; [congruence | reflexivity].
    - clear N. induction F as [|l ts ll tss E F IH]; [intros ? []|]. intros x [<-|I]; [apply E | auto]. }
  constructor; try exact V.
  - intro k. destruct W as [x ->]. reflexivity.
  - intro k. apply quant_all. reflexivity.
  - intro k. apply quant_distinct.
  - intros n rest Hn G. unfold paren in *. cbn [app length] in *. rewrite app_length in Hn. cbn [length] in Hn.
    unfold p_group. cbn [K String.eqb Ascii.eqb Bool.eqb]. rewrite (eat_word _ _ _ W). unfold p_parenthesised.
    rewrite eat_sym_same. cbn [need bind]. rewrite <- app_assoc. cbn [app].
    rewrite (sep_ok (p_gset (p_bool en n 0)) (TSym ")" :: rest) ll tss); auto.
    + cbn [bind]. rewrite eat_sym_same. cbn [need bind]. unfold v_group. cbn [bind]. rewrite V. reflexivity.
    + eapply Forall2_in; [|exact F]. intros x ts I H r Hr.
      apply H; [pose proof (commas_length_in _ _ I); lia |]. destruct Hr as [->|[r' ->]]; split; reflexivity.
Qed.
Inductive Gb (en : env) : option (groupby node) -> list token -> Prop :=
| Gb_none : Gb en None []
| Gb_some d tq l tss : quantity d tq -> Forall2 (Gr en) l tss -> l <> [] ->
    Gb en (Some (mkG l d)) (K "GROUP" :: K "BY" :: tq ++ commas tss).
Lemma Gb_read en o ts n rest :
  Gb en o ts -> 8 * length ts <= n -> 3 < rank rest ->
  p_clause "GROUP" (after_by (p_groupby (p_bool en n 0))) (ts ++ rest)
  = Ok (match o with None => None | Some g => Some (Ok g) end, rest).
Proof.
  intros H Hn R. pose proof (rank_end rest ltac:(lia)) as E. destruct H as [|d tq l tss Q F N].
  - apply (clause_absent _ 3); [cbn; tauto | exact R].
  - cbn [length] in Hn. rewrite app_length in Hn. cbn [app]. rewrite <- app_assoc.
    unfold p_clause. rewrite eat_kw_same. unfold after_by. rewrite eat_kw_same. cbn [need bind].
    assert (V : groupby_ok valid (mkG l d) = Ok tt).
    { cbn [groupby_ok]. apply all_ok_ok. clear - F. induction F as [|g h gs hs E F IH]; [intros ? []|].
      intros x [<-|I]; [apply E | auto]. }
    assert (S : sep (p_group (p_bool en n 0)) (commas tss ++ rest) = Ok (Ok l, rest)).
    { apply sep_ok; [| exact N | apply E]. eapply Forall2_in; [|exact F]. intros x ts I H r Hr.
      apply H; [pose proof (commas_length_in _ _ I); lia |].
      destruct Hr as [->|[r' ->]]; [|split; reflexivity]. destruct E as [[] ]. split; assumption. }
    unfold p_groupby.
    assert (P : p_group_quant (tq ++ commas tss ++ rest)
                = (match tq with [] => None | _ => Some (if d then "DISTINCT" else "ALL") end, commas tss ++ rest)).
    { destruct F as [|g h gs hs G F]; [congruence|].
      destruct (commas_first h hs rest) as (k & -> & _). destruct Q; cbn [app]; apply G. }
    rewrite P, S. cbn [bind]. unfold v_groupby. cbn [bind].
    destruct Q; cbn [bind v_quant String.eqb Ascii.eqb Bool.eqb]; rewrite V; reflexivity.
Qed.
Lemma Gb_rank en o ts r : Gb en o ts -> 3 < rank r -> 2 < rank (ts ++ r).
Proof. intros [] R; cbn [app]; [lia | cbn; lia]. Qed.

(** * Relations *)
Lemma table_visit l t : table_name l t -> v_table (map IdUnquoted l) = Ok t /\ l <> [] /\ made t.
Proof.
  intro H. assert (V : table_from_qualifiers l = mk t).
  { destruct H as [n|s n|l c s n Hs]; try reflexivity. unfold table_from_qualifiers. rewrite rev_app_distr. reflexivity. }
  assert (made t) as M.
  { destruct H as [n|s n|l c s n Hs]; [eexists; reflexivity..|]. exists None. cbn [check truthy].
    destruct s; [congruence|]. destruct c; reflexivity. }
  split; [|split; [destruct H as [| |[|]]; discriminate | exact M]].
  unfold v_table, v_names. rewrite visit_idents. cbn [bind]. rewrite V. now apply made_mk.
Qed.
Lemma Rl_named en l t : table_name l t -> Rl en 3 t (dotted l).
Proof.
  intro H. destruct (table_visit l t H) as (V & N & _).
  assert (T : t <> NNone) by (destruct H; discriminate).
  destruct l as [|x l]; [congruence|].
  assert (S : exists d, dotted (x :: l) = TId x :: d) by (destruct l; eexists; reflexivity).
  destruct S as [d S].
  apply mk_rel_prim; [exact T | rewrite S; exact Logic.I |].
  intros m rest _ E _. unfold pp_of, p_relation_primary. pose proof (dotted_ok x l rest E) as Q.
  rewrite S in *. cbn [app] in *. rewrite Q. cbn [bind]. now rewrite V.
Qed.
Lemma Rl_lateral_word en t q tq : word "LATERAL" t -> Rq en q tq -> made (NLateral q) ->
  Rl en 3 (NLateral q) (t :: paren tq).
Proof.
  intros [x ->] [F Q] T. apply mk_rel_prim; [discriminate | reflexivity |].
  intros n rest Hn _ _. unfold paren in *. cbn [length] in Hn. rewrite app_length in Hn. cbn [length] in Hn.
  unfold pp_of, p_relation_primary, p_parenthesised. cbn [app String.eqb Ascii.eqb Bool.eqb andb].
  rewrite eat_sym_same. cbn [need bind]. rewrite <- app_assoc. cbn [app].
  rewrite Q by (reflexivity || lia). cbn [bind].
  rewrite eat_sym_same. cbn [need bind]. now rewrite (made_mk _ T).
Qed.
Lemma Rl_unnest_text en l tss o to :
  Exs en l tss -> l <> [] -> ordinality o to -> made (NUnnest l o) ->
  Rl en 3 (NUnnest l o) (K "UNNEST" :: paren (commas tss) ++ to).
Proof.
  intros H N O T. apply mk_rel_prim; [discriminate | reflexivity |].
  intros n rest Hn _ W. unfold paren in *. cbn [length app] in Hn. rewrite !app_length in Hn. cbn [length] in Hn.
  unfold pp_of, p_relation_primary, p_parenthesised. cbn [app K String.eqb Ascii.eqb Bool.eqb andb].
  rewrite eat_sym_same. cbn [need bind]. rewrite <- !app_assoc. cbn [app].
  rewrite (exprs_ok _ _ l tss); [| reflexivity | apply Rx_Rd; apply ex_rxs; auto; lia | exact N | reflexivity].
  cbn [bind]. rewrite eat_sym_same. cbn [need bind]. destruct O as [|t Wt]; cbn [app].
  - rewrite W. now rewrite (made_mk _ T).
  - rewrite eat_kw_same, (eat_word _ _ _ Wt). cbn [need bind]. now rewrite (made_mk _ T).
Qed.
Lemma Rl_alias en r ts a ta cols :
  Rl en 3 r ts -> alias a ta -> made (NAliasedRel r a cols) ->
  Rl en 2 (NAliasedRel r a cols) (ts ++ ta ++ columns_text cols).
Proof.
  intros R A T. apply mk_alias; [discriminate | |].
  - pose proof (rl_first _ _ _ _ R) as F. destruct ts; [contradiction | exact F].
  - intros n rest Hn E. rewrite !app_length in Hn. rewrite <- !app_assoc.
    destruct (alias_stops a ta (columns_text cols ++ rest) A) as (_ & D & W).
    unfold pa_of, p_aliased. fold (pp_of en n). rewrite (rl_prim _ _ _ _ R) by (assumption || reflexivity || lia).
    cbn [bind]. rewrite (alias_read _ _ _ A). cbn [bind].
    rewrite columns_opt_ok by apply E. cbn [bind]. unfold v_aliased_rel. cbn [bind visit_ident].
    unfold v_names. rewrite visit_idents. cbn [bind]. now rewrite (made_mk _ T).
Qed.
Lemma Rl_sample_word en r ts st p tp c t :
  Rl en c r ts -> 2 <= c -> word "TABLESAMPLE" t -> Exo en p tp -> made (NSample r st p) ->
  Rl en 1 (NSample r st p) (ts ++ t :: K (sample_text st) :: paren tp).
Proof.
  intros R Hc [x ->] P T. apply mk_samp; [discriminate | |].
  - pose proof (rl_first _ _ _ _ R) as F. destruct ts; [contradiction | exact F].
  - intros n rest Hn E _. rewrite app_length in Hn. unfold paren in *. cbn [length] in Hn.
    rewrite app_length in Hn. cbn [length] in Hn.
    rewrite <- app_assoc. cbn [app]. rewrite <- app_assoc. cbn [app].
    unfold ps_of, p_sampled. fold (pa_of en n).
    rewrite (rl_alias _ _ _ _ R Hc); [| lia |].
    2:{ unfold K; destruct st; ender_tac. }
    cbn [bind]. set (q := tp ++ TSym ")" :: rest).
    assert (clause_ahead (TKw "TABLESAMPLE" x :: K (sample_text st) :: TSym "(" :: q) = true) as ->
      by (destruct st; reflexivity).
    rewrite (eat_word "TABLESAMPLE") by (eexists; reflexivity).
    cbn [K]. unfold p_parenthesised. rewrite eat_sym_same. cbn [need bind]. subst q.
    rewrite (Exo_Rd en p tp n P) by (reflexivity || lia). cbn [bind]. rewrite eat_sym_same. cbn [need bind].
    assert (v_sample_type (sample_text st) = Ok st) as -> by (destruct st; reflexivity).
    cbn [bind]. now rewrite (made_mk _ T).
Qed.

Inductive Cr (en : env) : jcrit node -> list token -> Prop :=
| Cr_on e te : Exo en e te -> Cr en (JOn e) (K "ON" :: te)
| Cr_using l : l <> [] -> Cr en (JUsing l) (K "USING" :: paren (words l)).
Lemma Cr_read en x ts n rest : Cr en x ts -> 8 * length ts <= n -> lev rest = 0 ->
  p_criteria (p_bool en n 0) (ts ++ rest) = Ok (Ok x, rest).
Proof.
  intros [e te E|l N] Hn L; unfold p_criteria; cbn [app length] in *.
  - rewrite eat_kw_same. rewrite (Exo_Rd en e te n E) by (auto; lia). reflexivity.
  - cbn [eat_kw K String.eqb Ascii.eqb Bool.eqb need bind].
    rewrite columns_ok by exact N. cbn [bind]. unfold v_names. now rewrite visit_idents.
Qed.
Lemma Cr_start en x ts rest : Cr en x ts -> ender (ts ++ rest) /\ join_ahead (ts ++ rest) = false
  /\ eat_kw "TABLESAMPLE" (ts ++ rest) = None.
Proof. intros []; cbn [app]; unfold K; (split; [ender_tac|split; reflexivity]). Qed.
Lemma join_words_start jt tj r : join_words jt tj ->
  ender (tj ++ K "JOIN" :: r) /\ eat_kw "TABLESAMPLE" (tj ++ K "JOIN" :: r) = None.
Proof. intros [| |o []|o []|o []]; cbn [app]; unfold K; (split; [ender_tac|reflexivity]). Qed.
Lemma Rl_join_crit en c1 c2 l tl r tr jt tj x tx :
  Rl en c1 l tl -> Rl en c2 r tr -> join_words jt tj -> Cr en x tx ->
  made (NJoin l r jt false (Some x)) ->
  Rl en 0 (NJoin l r jt false (Some x)) (tl ++ tj ++ K "JOIN" :: tr ++ tx).
Proof.
  intros L R J C T. constructor; try lia; [discriminate | |].
  { pose proof (rl_first _ _ _ _ L) as F. destruct tl; [contradiction | exact F]. }
  intros n rest Hn E TS. rewrite !app_length in Hn. cbn [length] in Hn. rewrite app_length in Hn.
  pose proof (rl_first _ _ _ _ L) as F1. assert (1 <= length tl) by (destruct tl; [contradiction | cbn; lia]). clear F1.
  rewrite <- !app_assoc. cbn [app].
  destruct (join_words_start jt tj ((tr ++ tx) ++ rest) J) as [E1 T1].
  destruct (rl_rel _ _ _ _ L n _ ltac:(lia) E1 T1) as (k & Hk & ->). clear E1 T1.
  destruct k as [|k]; [lia|]. exists k. split.
  { rewrite !app_length in Hk. cbn [length] in Hk. rewrite !app_length in Hk. lia. }
  unfold loop_of at 1. cbn [rel_loop]. fold (loop_of en n).
  assert (G : (let* (b, r3) := p_relation en n ((tr ++ tx) ++ rest) in
               let* (c, r4) := p_criteria (p_bool en n 0) r3 in
               loop_of en n k (v_join (Ok l) b jt false (Some c)) r4)
              = loop_of en n k (Ok (NJoin l r jt false (Some x))) rest).
  { rewrite <- app_assoc. destruct (Cr_start en x tx rest C) as (E1 & J1 & T1).
    rewrite (rl_read en c2 r tr n); auto; [|lia]. cbn [bind].
    rewrite (Cr_read en x tx n rest C); [| lia | apply E]. cbn [bind]. unfold v_join. cbn [bind seq_opt].
    now rewrite (made_mk _ T). }
  destruct J as [| |o []|o []|o []]; exact G.
Qed.
Lemma Rl_join_bare en c1 c2 l tl r tr jt nat tj :
  Rl en c1 l tl -> Rl en c2 r tr -> 1 <= c2 -> plain_words jt nat tj ->
  made (NJoin l r jt nat None) ->
  Rl en 0 (NJoin l r jt nat None) (tl ++ tj ++ K "JOIN" :: tr).
Proof.
  intros L R Hc J T. constructor; try lia; [discriminate | |].
  { pose proof (rl_first _ _ _ _ L) as F. destruct tl; [contradiction | exact F]. }
  intros n rest Hn E TS. rewrite !app_length in Hn. cbn [length] in Hn.
  rewrite <- !app_assoc. cbn [app].
  assert (ender (tj ++ K "JOIN" :: tr ++ rest) /\ eat_kw "TABLESAMPLE" (tj ++ K "JOIN" :: tr ++ rest) = None) as [E1 T1].
  { destruct J; cbn [app]; unfold K; (split; [ender_tac|reflexivity]). }
  destruct (rl_rel _ _ _ _ L n _ ltac:(lia) E1 T1) as (k & Hk & ->). clear E1 T1.
  destruct k as [|k]; [lia|]. exists k. split.
  { rewrite !app_length in Hk. cbn [length] in Hk. rewrite !app_length in Hk. lia. }
  unfold loop_of at 1. cbn [rel_loop]. fold (loop_of en n). fold (ps_of en n).
  assert (G : (let* (b, r3) := ps_of en n (tr ++ rest) in
               loop_of en n k (v_join (Ok l) b jt nat None) r3)
              = loop_of en n k (Ok (NJoin l r jt nat None)) rest).
  { rewrite (rl_samp _ _ _ _ R Hc); auto; [|lia]. cbn [bind]. unfold v_join. cbn [bind seq_opt].
    now rewrite (made_mk _ T). }
  destruct J as [|jt tj [| |o []|o []|o []]]; exact G.
Qed.

(** * SELECT, TABLE, VALUES *)
Inductive Wd (en : env) : string * window node -> list token -> Prop :=
| Wd_def n w tw : Wn en w tw -> Wd en (n, w) (TId n :: K "AS" :: paren tw).
Lemma Wd_read en x ts n rest : Wd en x ts -> 8 * length ts <= n ->
  p_windef (p_bool en n 0) (ts ++ rest) = Ok (Ok x, rest).
Proof.
  intros [m w tw W] Hn. unfold paren in *. cbn [length] in Hn. rewrite app_length in Hn. cbn [length] in Hn.
  cbn [app]. unfold p_windef. cbn [p_ident bind]. rewrite eat_kw_same. cbn [need bind].
  unfold p_parenthesised. rewrite eat_sym_same. cbn [need bind]. rewrite <- app_assoc. cbn [app].
  rewrite W by lia. cbn [bind]. rewrite eat_sym_same. reflexivity.
Qed.
Inductive Ws (en : env) : list (string * window node) -> list token -> Prop :=
| Ws_none : Ws en [] []
| Ws_some t l tss : word "WINDOW" t -> Forall2 (Wd en) l tss -> l <> [] -> Ws en l (t :: commas tss).
Lemma Ws_read en l ts n rest :
  Ws en l ts -> 8 * length ts <= n -> 6 <= rank rest ->
  (let* (ws, r) := if clause_ahead (ts ++ rest)
     then p_clause "WINDOW" (sep (p_windef (p_bool en n 0))) (ts ++ rest)
     else Ok (None, ts ++ rest) in Ok (ws, r))
  = Ok (match l with [] => None | _ => Some (Ok l) end, rest).
Proof.
  intros H Hn R. destruct H as [|t l tss [x ->] F N].
  - cbn [app]. unfold p_clause. rewrite (rank_absent rest "WINDOW" 5); [| cbn; tauto | lia].
    destruct (clause_ahead rest); reflexivity.
  - cbn [length] in Hn. cbn [app].
    assert (clause_ahead (TKw "WINDOW" x :: commas tss ++ rest) = true) as ->.
    { destruct F as [|y u l tss W F]; [congruence|]. destruct (commas_first u tss rest) as (k & -> & _).
      destruct W. reflexivity. }
    unfold p_clause. rewrite (eat_word "WINDOW") by (eexists; reflexivity).
    rewrite (sep_ok (p_windef (p_bool en n 0)) rest l tss).
    + cbn [bind]. destruct l; [congruence | reflexivity].
    + eapply Forall2_in; [|exact F]. intros y ts I H r _.
      apply Wd_read; [exact H|]. pose proof (commas_length_in _ _ I). lia.
    + exact N.
    + apply rank_end. lia.
Qed.
Lemma Ws_rank en l ts r : Ws en l ts -> 5 < rank r -> 4 < rank (ts ++ r).
Proof.
  intros [|t l' tss [x ->] F N] R; [cbn [app]; lia|]. cbn [app].
  destruct F as [|y u l2 tss2 W F]; [congruence|]. destruct (commas_first u tss2 r) as (k & -> & _).
  destruct W. cbn. lia.
Qed.

Lemma Core_text en d tq l tl fr fr0 tfr wh wh0 twh gb tgb hv hv0 thv ws tws :
  quantity d tq -> Forall2 (Si en) l tl -> l <> [] ->
  (tq = [TKw "ALL" "ALL"] -> forall k, starts_expr (hd [] tl ++ k) = true) ->
  from_ex en fr fr0 tfr -> cond_ex en wh wh0 twh -> Gb en gb tgb -> cond_ex en hv hv0 thv ->
  Ws en ws tws -> distinct_names (map fst ws) = true ->
  made (NSelect l fr wh gb hv d ws no_qattrs) ->
  Core en (NSelect l fr wh gb hv d ws no_qattrs)
    (K "SELECT" :: tq ++ commas tl ++ from_text tfr ++ expr_clause "WHERE" twh ++ tgb
     ++ expr_clause "HAVING" thv ++ tws).
Proof.
  intros Hq Hl N HA [Hf Df] [Hw Dw] Hg [Hh Dh] Hws D T.
  constructor; [reflexivity|].
  intros n rest Hn R. cbn [length] in Hn.
  repeat (rewrite !app_length in Hn; cbn [length] in Hn).
  pose proof (Ws_rank en ws tws rest Hws ltac:(lia)) as R5.
  pose proof (rank_having thv _ R5) as R4. pose proof (Gb_rank en gb tgb _ Hg R4) as R3.
  pose proof (rank_where twh _ R3) as R2.
  assert (R1 : 1 <= rank (from_text tfr ++ expr_clause "WHERE" twh ++ tgb
                          ++ expr_clause "HAVING" thv ++ tws ++ rest)).
  { unfold from_text. destruct tfr; cbn [expr_clause app]; [cbn; lia | lia]. }
  cbn [app]. rewrite <- !app_assoc.
  unfold p_query_primary. cbn [K String.eqb Ascii.eqb Bool.eqb]. unfold p_select.
  set (body := commas tl ++ from_text tfr ++ expr_clause "WHERE" twh ++ tgb
               ++ expr_clause "HAVING" thv ++ tws ++ rest).
  assert (p_quant (tq ++ body)
          = (match tq with [] => None | _ => Some (if d then "DISTINCT" else "ALL") end, body)) as ->.
  { destruct Hq; cbn [app].
    - unfold body. now apply (items_quant en l).
    - assert (starts_expr body = true) as S.
      { unfold body. destruct Hl as [|x t l' tl' S F]; [congruence|].
        destruct (commas_first t tl' (from_text tfr ++ expr_clause "WHERE" twh ++ tgb
               ++ expr_clause "HAVING" thv ++ tws ++ rest)) as (k & -> & _). now apply HA. }
      cbn [p_quant String.eqb Ascii.eqb Bool.eqb]. rewrite S. reflexivity.
    - reflexivity. }
  unfold body. rewrite (items_ok en n l tl); auto; [|lia]. cbn [bind].
  rewrite (from_ok en n fr0 tfr); auto; [|lia]. cbn [bind].
  rewrite (expr_clause_ok en n "WHERE" 2 wh0 twh); auto; [| cbn; tauto | lia]. cbn [bind].
  rewrite (Gb_read en gb tgb n); auto; [|lia]. cbn [bind].
  rewrite (expr_clause_ok en n "HAVING" 4 hv0 thv); auto; [| cbn; tauto | lia]. cbn [bind].
  pose proof (Ws_read en ws tws n rest Hws ltac:(lia) R) as W.
  match type of W with (let* (_, _) := ?x in _) = _ => destruct x as [[wv r]|] end; [|discriminate W].
  cbn [bind] in W |- *. injection W as -> ->. f_equal. f_equal.
  unfold v_select. cbn [bind].
  assert (exists ts, each (fun x => tyof (check x)) l = Ok ts) as [ts E].
  { destruct T as [t T]. cbn [check] in T. destruct (each _ l) as [ts|] in T |- *; [eauto | discriminate T]. }
  assert (made (NSelect l None None None None false [] no_qattrs)) as T0.
  { exists (Some (select_type ts)). cbn [check]. rewrite E. destruct l; [congruence | reflexivity]. }
  rewrite (made_mk _ T0). cbn [bind].
  assert (forall x : option node, seq_opt (match x with Some e => Some (Ok e) | None => None end) = Ok x) as Q
    by (intros [|]; reflexivity).
  rewrite !Q.
  assert (seq_opt (match gb with Some g => Some (Ok g) | None => None end) = Ok gb) as ->
    by (destruct gb; reflexivity).
  assert (seq_opt (match ws with [] => None | _ :: _ => Some (Ok ws) end)
          = Ok (match ws with [] => None | _ => Some ws end)) as -> by (destruct ws; reflexivity).
  assert (match match ws with [] => None | _ :: _ => Some ws end with None => [] | Some l => dict_of l end = ws) as DW.
  { destruct ws as [|w ws']; [reflexivity|]. now apply dict_of_distinct. }
  destruct fr0 as [r|], Hq; cbn [bind hd_error Nat.ltb Nat.leb v_quant String.eqb Ascii.eqb Bool.eqb];
    rewrite DW, Dw, Dh; rewrite ?Df; try (now rewrite (made_mk _ T)).
  all: change (drop_absent None) with (@None node) in *; now rewrite (made_mk _ T).
Qed.
Lemma Core_named en l t : table_name l t -> Core en (NTableQuery t no_qattrs) (K "TABLE" :: dotted l).
Proof.
  intro H. destruct (table_visit l t H) as (V & N & T). constructor; [reflexivity|].
  intros m rest Hm R. pose proof (rank_end rest ltac:(lia)) as E.
  cbn [app]. unfold p_query_primary. cbn [K String.eqb Ascii.eqb Bool.eqb].
  destruct l as [|x l]; [congruence|]. rewrite dotted_ok by apply E. cbn [bind]. rewrite V. cbn [bind].
  rewrite made_mk; [reflexivity|]. destruct T as [ty T]. exists (Some unknown).
  assert (exists n sc ca, t = NTable n sc ca) as (n & sc & ca & ->) by (destruct H; eauto).
  change (check (NTableQuery (NTable n sc ca) no_qattrs)) with
    (let* _ := (let* _ := check (NTable n sc ca) in Ok tt) in
     let* _ := qattrs_ok (fun x => let* _ := check x in Ok tt) (@no_qattrs node) in Ok (Some unknown)).
  rewrite T. reflexivity.
Qed.

(** * Set operations *)
Definition next_tight (ts : list token) : nat :=
  match ts with TKw w _ :: _ => match set_kw w with Some (p, _) => p | None => 0 end | _ => 0 end.
Lemma tight_stops pt k lvl v ts : next_tight ts < lvl -> term_loop pt (S k) lvl v ts = Ok (v, ts).
Proof.
  intro H. cbn [term_loop]. destruct ts as [|[w t| | | | | | | | | | |s|c] r]; try reflexivity.
  cbn [next_tight] in H. destruct (set_kw w) as [[p op]|]; [|reflexivity].
  apply Nat.leb_gt in H. now rewrite H.
Qed.
Lemma tight_step pt k lvl v w t r :
  term_loop pt (S k) lvl v (TKw w t :: r)
  = match set_kw w with
    | Some (p, op) =>
        if Nat.leb lvl p then
          let '(q, r1) := p_set_quant r in
          let* (b, r2) := pt (S p) r1 in term_loop pt k lvl (v_set op q v b) r2
        else Ok (v, TKw w t :: r)
    | None => Ok (v, TKw w t :: r)
    end.
Proof. reflexivity. Qed.
Definition undressed (q : node) : Prop :=
  match q with
  | NSelect _ _ _ _ _ _ _ a | NTableQuery _ a | NValues _ a | NSetQuery _ _ _ _ a => a = no_qattrs
  | _ => False
  end.
Definition core_first (ts : list token) : Prop :=
  match ts with TKw k _ :: _ => mem k ["SELECT"; "TABLE"; "VALUES"] = true | _ => False end.
Record Tm (en : env) (c : nat) (q : node) (ts : list token) : Prop := {
  tm_first : core_first ts;
  tm_plain : undressed q;
  tm_read : forall n lvl rest, 8 * length ts + 1 <= n -> lvl <= c -> 6 <= rank rest -> next_tight rest <= c ->
    exists m k, n = S m /\ length rest < k
      /\ p_term en n lvl (ts ++ rest) = term_loop (p_term en m) k lvl (Ok q) rest }.
Lemma Tm_core en q ts : Core en q ts -> undressed q -> Tm en 3 q ts.
Proof.
  intros C U. constructor; [apply C | exact U |]. intros n lvl rest Hn Hl R _.
  destruct n as [|n]; [lia|]. exists n, (S (length rest)). split; [reflexivity|]. split; [lia|].
  change (p_term en (S n) lvl ?ts) with
      (term_body (p_term en n) (p_query_primary (p_bool en n 0) (p_primary en n) (p_relation en n)
                            (p_query_no_with en n)) lvl ts).
  unfold term_body. rewrite (co_read _ _ _ C) by lia. reflexivity.
Qed.
Lemma set_quant_read d tq ts r : set_quantity d tq -> core_first ts ->
  p_set_quant (tq ++ ts ++ r)
  = (match tq with [] => None | _ => Some (if d then "DISTINCT" else "ALL") end, ts ++ r).
Proof.
  intros Q F. destruct Q; [|reflexivity..]. cbn [app].
  destruct ts as [|[k x| | | | | | | | | | |s|c] ts]; try contradiction. cbn [app p_set_quant]. cbn [core_first] in F.
  destruct (mem k ["DISTINCT"; "ALL"]) eqn:D; [|reflexivity]. exfalso. unfold mem in *. cbn [existsb] in *.
  repeat match type of D with context [String.eqb k ?w] => destruct (String.eqb_spec k w) as [->|] end;
    discriminate.
Qed.
Lemma Tm_op en op c1 l tl c2 r tr d tq :
  Tm en c1 l tl -> Tm en c2 r tr -> op_tight op <= c1 -> op_tight op < c2 -> set_quantity d tq ->
  made (NSetQuery op l r d no_qattrs) ->
  Tm en (op_tight op) (NSetQuery op l r d no_qattrs) (tl ++ K (op_text op) :: tq ++ tr).
Proof.
  intros L R H1 H2 Q T. constructor; [| reflexivity |].
  { pose proof (tm_first _ _ _ _ L) as F. destruct tl; [contradiction | exact F]. }
  intros n lvl rest Hn Hl Rk Hr. rewrite !app_length in Hn. cbn [length] in Hn. rewrite app_length in Hn.
  set (tail := K (op_text op) :: tq ++ tr ++ rest).
  assert (N : next_tight tail = op_tight op) by (subst tail; destruct op; reflexivity).
  assert (RT : rank tail = 10) by (subst tail; destruct op; reflexivity).
  destruct (tm_read _ _ _ _ L n lvl tail) as (m & k & En & Lk & P); [lia | lia | lia | lia |].
  subst n. rewrite <- app_assoc. cbn [app]. rewrite <- app_assoc. fold tail. rewrite P. exists m.
  destruct k as [|k]; [cbn in Lk; lia|]. exists k. split; [reflexivity|].
  split. { subst tail. cbn [length] in Lk. rewrite !app_length in Lk. lia. }
  subst tail. unfold Tokens.K. rewrite tight_step.
  destruct (tm_read _ _ _ _ R m (S (op_tight op)) rest) as (m' & k' & -> & Lk' & P'); [lia | lia | exact Rk | lia |].
  rewrite (set_quant_read d tq tr rest Q (tm_first _ _ _ _ R)).
  assert (set_kw (op_text op) = Some (op_tight op, op)) as -> by (destruct op; reflexivity).
  apply Nat.leb_le in Hl. rewrite Hl, P'. destruct k' as [|k']; [lia|].
  rewrite tight_stops by lia. cbn [bind]. f_equal. unfold v_set. cbn [bind].
  destruct Q; cbn [bind v_quant String.eqb Ascii.eqb Bool.eqb]; now rewrite (made_mk _ T).
Qed.

(** * Queries *)
Lemma number_of s : Z.of_N (N_of_str s) = number s.
Proof. unfold number. now rewrite digits_val. Qed.
Lemma row_read ts r : row_word ts -> eat_rows (ts ++ r) = Some r.
Proof. intros [t [x ->]|t [x ->]]; reflexivity. Qed.
Lemma offset_read o ts rest : offset_text o ts -> 7 < rank rest ->
  p_offset (ts ++ rest) = Ok (match o with None => None | Some z => Some (Ok z) end, rest).
Proof.
  intros H R. pose proof (rank_end rest ltac:(lia)) as E. unfold p_offset. destruct H as [|t s rw W O].
  - cbn [app]. rewrite (rank_absent rest "OFFSET" 7); [reflexivity | cbn; tauto | exact R].
  - cbn [app]. rewrite (eat_word _ _ _ W). cbn [p_row_count bind]. rewrite number_of. destruct O as [->|O].
    + cbn [app]. now rewrite (ce_rows _ E).
    + now rewrite (row_read _ _ O).
Qed.
Lemma limit_read o ts rest : limit_text o ts -> 8 < rank rest ->
  exists l, p_limit (ts ++ rest) = Ok (l, rest) /\ (l = None /\ o = None \/ l = Some (Ok o)).
Proof.
  intros H R. pose proof (rank_end rest ltac:(lia)) as E. unfold p_limit.
  destruct H as [|t s W|t W|t u n rw v W U Hn Hr V|t u n rw v W U Hn Hr V]; cbn [app].
  - exists None. rewrite (rank_absent rest "LIMIT" 8); [| cbn; tauto | exact R].
    rewrite (ce_fetch _ E R). split; [reflexivity | now left].
  - rewrite (eat_word _ _ _ W). cbn [p_row_count bind]. rewrite number_of. eexists. split; [reflexivity | now right].
  - rewrite (eat_word _ _ _ W). cbn [String.eqb Ascii.eqb Bool.eqb]. eexists. split; [reflexivity | now right].
  - exists None. split; [|now left]. rewrite (eat_other _ "LIMIT" _ _ W), (eat_word _ _ _ W) by discriminate.
    rewrite <- !app_assoc. cbn [app].
    assert (exists x k, u = TKw k x /\ mem k ["FIRST"; "NEXT"] = true) as (x & k & -> & M)
      by (destruct U as [[x ->]|[x ->]]; eauto).
    rewrite M. cbn [bind].
    assert (match p_row_count (n ++ rw ++ v :: rest) with Ok (_, r2) => r2 | Err _ => n ++ rw ++ v :: rest end
            = rw ++ v :: rest) as ->.
    { destruct Hn as [->|[s ->]]; [|reflexivity]. cbn [app]. destruct Hr as [t' [y ->]|t' [y ->]]; reflexivity. }
    rewrite (row_read _ _ Hr). cbn [need bind]. now rewrite (eat_word _ _ _ V).
  - exists None. split; [|now left]. rewrite (eat_other _ "LIMIT" _ _ W), (eat_word _ _ _ W) by discriminate.
    rewrite <- !app_assoc. cbn [app].
    assert (exists x k, u = TKw k x /\ mem k ["FIRST"; "NEXT"] = true) as (x & k & -> & M)
      by (destruct U as [[x ->]|[x ->]]; eauto).
    rewrite M. cbn [bind].
    assert (match p_row_count (n ++ rw ++ K "WITH" :: v :: rest) with Ok (_, r2) => r2 | Err _ => n ++ rw ++ K "WITH" :: v :: rest end
            = rw ++ K "WITH" :: v :: rest) as ->.
    { destruct Hn as [->|[s ->]]; [|reflexivity]. cbn [app]. destruct Hr as [t' [y ->]|t' [y ->]]; reflexivity. }
    rewrite (row_read _ _ Hr). cbn [need bind].
    rewrite (eat_other "WITH" "ONLY") by (apply K_word || discriminate). rewrite eat_kw_same. cbn [need bind].
    now rewrite (eat_word _ _ _ V).
Qed.
Lemma offset_rank o ts r : offset_text o ts -> 7 < rank r -> 6 < rank (ts ++ r).
Proof. intros [|t s rw [x ->] _] R; cbn [app]; [lia | cbn; lia]. Qed.
Lemma limit_rank o ts r : limit_text o ts -> 8 < rank r -> 7 < rank (ts ++ r).
Proof.
  intros [|t s [x ->]|t [x ->]|t u n rw v [x ->] U _ _ _|t u n rw v [x ->] U _ _ _] R; cbn [app]; try lia; try (cbn; lia);
    destruct U as [[y ->]|[y ->]]; cbn; lia.
Qed.
Lemma order_rank en l ts r : Or en l ts -> 6 < rank r -> 5 < rank (ts ++ r).
Proof.
  intros O R. destruct (or_first _ _ _ O) as [[_ ->]|(_ & x & ->)]; cbn [app]; [lia | cbn; lia].
Qed.
(** WITH: names, perhaps with names of columns, of queries. *)
Inductive Nq (en : env) : node -> list token -> Prop :=
| Nq_named n cols q tq : Rq en q tq -> made (NAliasedRel q n cols) ->
    Nq en (NAliasedRel q n cols) (TId n :: columns_text cols ++ K "AS" :: paren tq).
Lemma Nq_read en x ts n rest : Nq en x ts -> 8 * length ts <= n ->
  p_named (p_query en n) (ts ++ rest) = Ok (Ok x, rest).
Proof.
  intros [a cols q tq [F Q] T] Hn. unfold paren in *. cbn [length] in Hn. rewrite app_length in Hn. cbn [length] in Hn.
  rewrite app_length in Hn. cbn [length] in Hn. cbn [app]. rewrite <- !app_assoc. cbn [app].
  unfold p_named. cbn [p_ident bind].
  rewrite columns_opt_ok by reflexivity. cbn [bind].
  rewrite eat_kw_same. cbn [need bind]. unfold p_parenthesised. rewrite eat_sym_same. cbn [need bind].
  rewrite <- app_assoc. cbn [app]. rewrite Q by (reflexivity || lia). cbn [bind]. rewrite eat_sym_same.
  cbn [need bind]. unfold v_named. cbn [bind visit_ident]. unfold v_names. rewrite visit_idents. cbn [bind].
  now rewrite (made_mk _ T).
Qed.
Inductive Wt (en : env) : list node -> list token -> Prop :=
| Wt_none : Wt en [] []
| Wt_some l tss : Forall2 (Nq en) l tss -> l <> [] -> Wt en l (K "WITH" :: commas tss).
Lemma Rq_text en ws tw c core tc ob tob off tof lim tlm :
  Wt en ws tw -> Tm en c core tc -> Or en ob tob -> offset_text off tof -> limit_text lim tlm ->
  Rq en (with_q (mkQ ws ob off lim) core) (tw ++ tc ++ tob ++ tof ++ tlm).
Proof.
  intros Hw C Ho Hoff Hlim. pose proof (tm_first _ _ _ _ C) as CF. constructor.
  { destruct Hw; [|reflexivity]. cbn [app].
    destruct tc as [|[k| | | | | | | | | | |s|c'] tc]; try contradiction. cbn [app starts_query].
    unfold query_kw, mem, core_first in *. unfold mem in CF. cbn [existsb] in *. rewrite !orb_true_iff in *. tauto. }
  intros n rest Hn R. apply rank_qend in R.
  pose proof (limit_rank lim tlm rest Hlim ltac:(lia)) as R8. pose proof (offset_rank off tof _ Hoff R8) as R7.
  pose proof (order_rank en ob tob _ Ho R7) as R6.
  repeat (rewrite !app_length in Hn; cbn [length] in Hn). rewrite <- !app_assoc.
  set (tail := tob ++ tof ++ tlm ++ rest) in *.
  assert (1 <= length tc) as Ltc by (destruct tc; [contradiction | cbn; lia]).
  destruct n as [|[|[|n]]]; try lia.
  assert (P : p_query_no_with en (S (S n)) (tc ++ tail) = Ok (Ok (with_q (mkQ [] ob off lim) core), rest)).
  { change (p_query_no_with en (S (S n)) (tc ++ tail))
      with (qnw_body (p_term en (S n) 0) (p_bool en (S n) 0) (tc ++ tail)).
    unfold qnw_body.
    assert (NT : next_tight tail = 0).
    { assert (RT : rank tail < 10).
      { clear -R Ho Hoff Hlim. subst tail. destruct (or_first _ _ _ Ho) as [[_ ->]|(_ & x & ->)]; cbn [app]; [|cbn; lia].
        destruct Hoff as [|t s rw [x ->] _]; cbn [app]; [|cbn; lia].
        destruct Hlim as [|t s [x ->]|t [x ->]|t u m rw v [x ->] U _ _ _|t u m rw v [x ->] U _ _ _]; cbn [app];
          try lia; try (cbn; lia); destruct U as [[y ->]|[y ->]]; cbn; lia. }
      pose proof (ce_set _ (rank_end tail ltac:(lia))) as CS.
      destruct tail as [|[k t| | | | | | | | | | |s|c'] r]; try reflexivity. cbn [next_tight].
      now rewrite (CS t k r eq_refl RT). }
    destruct (tm_read _ _ _ _ C (S n) 0 tail) as (m & k & Em & Lk & ->); [lia | lia | lia | lia |].
    destruct k as [|k]; [lia|].
    assert (term_loop (p_term en m) (S k) 0 (Ok core) tail = Ok (Ok core, tail)) as ->.
    { cbn [term_loop]. destruct tail as [|[w x| | | | | | | | | | |s|c'] r]; try reflexivity.
      cbn [next_tight] in NT. destruct (set_kw w) as [[p op]|] eqn:W; [|reflexivity].
      exfalso. unfold set_kw in W. repeat match type of W with context [if ?b then _ else _] => destruct b end;
        try discriminate W; injection W as <- <-; discriminate NT. }
    cbn [bind]. unfold tail.
    assert (OE : orders_end (tof ++ tlm ++ rest)).
    { assert (clause_end (tof ++ tlm ++ rest)) as E by (apply rank_end; lia).
      split; [apply E|]. split; [apply E|]. apply (rank_absent _ _ 6); [cbn; tauto | lia]. }
    rewrite (or_read _ _ _ Ho) by (exact OE || lia). cbn [bind].
    rewrite (offset_read off tof) by (auto; lia). cbn [bind].
    destruct (limit_read lim tlm rest Hlim ltac:(lia)) as (lv & -> & LV). cbn [bind].
    f_equal. f_equal. unfold v_query_no_with. cbn [bind]. pose proof (tm_plain _ _ _ _ C) as B.
    destruct core; try contradiction; cbn [undressed] in B; subst qa; unfold with_q, no_qattrs;
      destruct LV as [[-> ->]| ->]; destruct ob, off; reflexivity. }
  change (p_query en (S (S (S n))) (tw ++ tc ++ tail))
    with (query_body (p_query_no_with en (S (S n))) (p_query en (S (S n))) (tw ++ tc ++ tail)).
  unfold query_body. destruct Hw as [|ws tss Fw Nw].
  - cbn [app].
    assert (eat_kw "WITH" (tc ++ tail) = None) as ->.
    { destruct tc as [|[k| | | | | | | | | | |s|c'] tc']; try contradiction. cbn [app eat_kw].
      destruct (String.eqb_spec k "WITH") as [->|]; [discriminate CF | reflexivity]. }
    rewrite P. reflexivity.
  - cbn [length] in Hn. cbn [app]. rewrite eat_kw_same.
    assert (W : sep (p_named (p_query en (S (S n)))) (commas tss ++ tc ++ tail) = Ok (Ok ws, tc ++ tail)).
    { apply sep_ok; [| exact Nw |].
      - eapply Forall2_in; [|exact Fw]. intros y ts I H r _.
        apply Nq_read; [exact H|]. pose proof (commas_length_in _ _ I). lia.
      - destruct tc as [|[k| | | | | | | | | | |s|c'] tc']; try contradiction. reflexivity. }
    assert (eat_kw "RECURSIVE" (commas tss ++ tc ++ tail) = None) as ->.
    { destruct Fw as [|y u ws' tss' Y Fw]; [congruence|].
      destruct (commas_first u tss' (tc ++ tail)) as (k & -> & _). destruct Y. reflexivity. }
    rewrite W. cbn [bind]. rewrite P. cbn [bind]. unfold v_query. cbn [bind py_assert negb].
    pose proof (tm_plain _ _ _ _ C) as B. destruct core; try contradiction; reflexivity.
Qed.
