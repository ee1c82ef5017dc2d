(** C74: printing loses no name, integer or text. *)
From Coq Require Import String Ascii List ZArith NArith Bool Arith Lia.
From Verif Require Import PyStr Types TypeFacts Inference Printer Lexer LexFacts TypeParser TypeRoundTrip Functions Ast Walk Tokens NodeFacts Sql SqlReads
  Parser ParseRel Schema Cli Grammar ParseMoreQ ReadTokens Atoms PropertiesReads PropertiesAtoms PropertiesCli PropertiesQuoted.
Import ListNotations.
Open Scope nat_scope.
Open Scope string_scope.
Open Scope list_scope.

(** * Specification *)
(** The attributes of one object that its text does not show, or not as they are:
    quotation marks at the ends of a name or a text, empty qualifiers and names of parent
    windows, OFFSET 0 and LIMIT 0, everything at the end of a set operation, and
    arguments of a function that is written without parentheses. *)
Definition plain (q : ascii) (s : string) : bool := String.eqb (strip q s) s.
Definition shown_opt (o : option string) : bool := match o with Some n => plain dquote n | None => true end.
Definition shown_window {A} (w : window A) : bool := match w_parent w with Some "" => false | _ => true end.
Definition shown_count (o : option Z) : bool := match o with Some z => negb (Z.eqb z 0) | None => true end.
Definition shown_qattrs {A} (q : qattrs A) : bool := (shown_count (q_offset q) && shown_count (q_limit q))%bool.
Definition nothing {A} (q : qattrs A) : bool := match q with mkQ [] [] None None => true | _ => false end.
Definition shown_here (e : node) : bool :=
  match e with
  | NLit (LStr s) _ => plain squote s
  | NField n t _ => (plain dquote n && match t with TRNone => true | TRStr "" => false | TRStr s => plain dquote s | TRVal _ => false end)%bool
  | NStar t _ => match t with TRStr "" => false | _ => true end
  | NAliased _ n => plain dquote n
  | NTypeCtor v _ => plain squote v
  | NFunc f args fo =>
      (match fo_window fo with Some w => shown_window w | None => true end
       && (negb (fn_bare f) || match args, fo with [], mkFopts [] None None _ => true | _, _ => false end))%bool
  | NSelect _ _ _ _ _ _ ws qa => (forallb (fun nw => shown_window (snd nw)) ws && shown_qattrs qa)%bool
  | NTableQuery _ qa | NValues _ qa => shown_qattrs qa
  | NSetQuery _ _ _ _ qa => nothing qa
  | NTable n s c => (plain dquote n && shown_opt s && shown_opt c)%bool
  | NAliasedRel _ n _ => plain dquote n
  | _ => true
  end.
Inductive shown : node -> Prop :=
| shown_node e : shown_here e = true -> (forall x, In x (kids e) -> shown x) -> shown e.

(** * Tokens *)
Ltac sums := repeat first [rewrite in_tokens_cons | rewrite in_tokens_app | rewrite in_tokens_paren | rewrite in_tokens_nil]; rewrite ?sign_zero.
Lemma t_join a s l : in_tokens a (tjoin [TSym s] l) = list_sum (map (in_tokens a) l).
Proof.
  induction l as [|x [|y l] IH]; [reflexivity|cbn [tjoin map]; unfold list_sum; cbn [fold_right]; lia|].
  change (tjoin [TSym s] (x :: y :: l)) with (x ++ [TSym s] ++ tjoin [TSym s] (y :: l)). rewrite !in_tokens_app, IH. reflexivity.
Qed.
Lemma t_commas a l : in_tokens a (commas l) = list_sum (map (in_tokens a) l).
Proof. apply t_join. Qed.
Lemma t_word a w : in_token a (word_token w) = same a (AName w).
Proof. unfold word_token. destruct (mem w keywords), (mem w upper_keywords), (mem (upper w) keywords && String.eqb w (lower w))%bool; reflexivity. Qed.
Lemma t_words a l : list_sum (map (in_tokens a) (map (fun c => [word_token c]) l)) = in_names a l.
Proof.
  unfold in_names. rewrite map_map. f_equal. apply map_ext. intro c. rewrite in_tokens_cons, t_word, in_tokens_nil. lia.
Qed.
Lemma t_qid a n : plain dquote n = true -> in_token a (qid n) = same a (AName n).
Proof.
  intro H. apply String.eqb_eq in H. cbn [in_token qid]. unfold quote_identifier. cbn [append]. rewrite strip_quoted. now rewrite H.
Qed.
Lemma t_sid a n : plain squote n = true -> in_token a (sid n) = same a (AText n).
Proof.
  intro H. apply String.eqb_eq in H. cbn [in_token sid]. unfold quote_literal. cbn [append]. rewrite strip_quoted. now rewrite H.
Qed.
Lemma t_Z a z : (0 <= z)%Z -> in_token a (Ztok z) = same a (AInt (Z.abs_N z)).
Proof.
  intro H. cbn [in_token Ztok]. do 2 f_equal. pose proof (Z_of_text z H) as E. pose proof (number_of (str_of_Z z)) as N. unfold number in N. lia.
Qed.
Lemma t_int a z : in_tokens a (int_toks z) = same a (AInt (Z.abs_N z)).
Proof.
  unfold int_toks. destruct (Z.ltb_spec z 0); sums; rewrite t_Z by lia; [|lia]. replace (Z.abs_N (- z)) with (Z.abs_N z) by lia. lia.
Qed.
Lemma t_lit a l t : shown_here (NLit l t) = true -> in_lit a l <= in_tokens a (lit_toks l).
Proof.
  destruct l as [|b|z|d|f|s]; cbn [in_lit lit_toks shown_here]; intro H; try apply Nat.le_0_l; [rewrite t_int; lia|].
  sums. rewrite t_sid by exact H. lia.
Qed.

(** * Parts *)
Definition large (a : atom) (f : node -> list token) (l : list node) : Prop := forall k, In k l -> occ a k <= in_tokens a (f k).
Lemma large_app a f x y : large a f (x ++ y) -> large a f x /\ large a f y.
Proof. intro H. split; intros k I; apply H, in_or_app; auto. Qed.
Lemma large_sum a f l : large a f l -> occs a l <= list_sum (map (in_tokens a) (map f l)).
Proof. intro H. rewrite map_map. unfold occs. apply sum_le. exact H. Qed.
Lemma large_one a f k : large a f [k] -> occs a [k] <= in_tokens a (f k).
Proof. intro H. rewrite occs_cons. change (occs a []) with 0. pose proof (H k (or_introl eq_refl)). lia. Qed.
Lemma t_order a f o : large a f [o_value o] -> occ a (o_value o) <= in_tokens a (order_toks f o).
Proof. destruct o as [v d u]. cbn [o_value order_toks]. intro H. pose proof (H v (or_introl eq_refl)). sums. lia. Qed.
Lemma t_orders_sum a f l : large a f (map o_value l) -> occs a (map o_value l) <= list_sum (map (in_tokens a) (map (order_toks f) l)).
Proof.
  intro H. unfold occs. rewrite !map_map. apply sum_le. intros o I. apply t_order. intros k [<-|[]]. apply H. now apply in_map.
Qed.
Lemma t_orders a f l : large a f (map o_value l) -> occs a (map o_value l) <= in_tokens a (orders_toks f l).
Proof. intro H. destruct l as [|o l]; [apply le_n|]. unfold orders_toks. sums. rewrite t_commas. apply t_orders_sum in H. lia. Qed.
Lemma t_bound a f b : large a f (bound_kids b) -> occs a (bound_kids b) <= in_tokens a (bound_toks f b).
Proof. destruct b as [d v|d|]; cbn [bound_toks bound_kids]; intro H; [|apply Nat.le_0_l..]. apply large_one in H. sums. lia. Qed.
Lemma t_window a f w : shown_window w = true -> large a f (window_kids w) -> own_window a w + occs a (window_kids w) <= in_tokens a (window_toks f w).
Proof.
  destruct w as [p ob ps fr st en]. unfold own_window, shown_window. cbn [window_toks window_kids w_parent]. intros P H.
  apply large_app in H as [Ho H]. apply large_app in H as [Hp H]. apply large_app in H as [Hs He].
  apply t_orders in Ho. apply large_sum in Hp. apply t_bound in Hs, He. rewrite !occs_app. sums.
  assert (N : in_name a p = in_tokens a match p with None | Some "" => [] | Some m => [word_token m] end)
    by (destruct p as [[|c m]|]; try discriminate P; cbn [in_name]; [|reflexivity]; sums; rewrite t_word; lia).
  rewrite <- N.
  assert (Q : occs a ps <= in_tokens a match ps with [] => [] | _ :: _ => K "PARTITION" :: K "BY" :: commas (map f ps) end)
    by (destruct ps as [|x ps]; [apply le_n|]; sums; rewrite t_commas; lia).
  lia.
Qed.
Lemma t_fopts a f x : match fo_window x with Some w => shown_window w | None => true end = true -> large a f (fopts_kids x) ->
  own_fopts a x + occs a (fopts_kids x) <= in_tokens a (orders_toks f (fo_orderby x)) + in_tokens a (fopts_toks f x).
Proof.
  destruct x as [ob fi wi ig]. unfold own_fopts. cbn [fopts_toks fopts_kids fo_orderby fo_window]. intros P H.
  apply large_app in H as [Ho H]. apply large_app in H as [Hf Hw]. apply t_orders in Ho. rewrite !occs_app. sums.
  assert (F : occs a (opt_kids fi) <= in_tokens a (filter_toks f fi)).
  { destruct fi as [v|]; [|apply le_n]. cbn [filter_toks opt_kids] in *. apply large_one in Hf. sums. lia. }
  assert (W : match wi with Some w => own_window a w | None => 0 end + occs a match wi with Some w => window_kids w | None => [] end <= in_tokens a (over_toks f wi)).
  { destruct wi as [w|]; [|apply le_n]. cbn [over_toks]. apply (t_window a f w P) in Hw. sums. lia. }
  lia.
Qed.
Lemma t_set a f l : large a f l -> occs a l <= in_tokens a (set_toks f l).
Proof.
  intro H. destruct l as [|x [|y l]]; unfold set_toks; [apply Nat.le_0_l|now apply large_one|]. rewrite in_tokens_paren, t_commas. now apply large_sum.
Qed.
Lemma t_group a f g : large a f (group_kids g) -> occs a (group_kids g) <= in_tokens a (group_toks f g).
Proof.
  destruct g as [l|ll|l|l]; cbn [group_toks group_kids]; intro H; [now apply t_set| |sums; rewrite t_commas; apply large_sum in H; lia..].
  sums. rewrite t_commas, occs_concat, map_map.
  assert (E : list_sum (map (occs a) ll) <= list_sum (map (fun x => in_tokens a (set_toks f x)) ll)); [|lia].
  apply sum_le. intros l I. apply t_set. intros k Hk. apply H. apply in_concat. eauto.
Qed.
Lemma t_groupby a f g : large a f (groupby_kids g) -> occs a (groupby_kids g) <= in_tokens a (groupby_toks f g).
Proof.
  destruct g as [gs d]. cbn [groupby_toks groupby_kids]. intro H. sums. rewrite t_commas, occs_concat, !map_map.
  assert (E : list_sum (map (fun g => occs a (group_kids g)) gs) <= list_sum (map (fun x => in_tokens a (group_toks f x)) gs)); [|lia].
  apply sum_le. intros g I. apply t_group. intros k Hk. apply H. apply in_concat. exists (group_kids g). split; [now apply in_map|exact Hk].
Qed.
Lemma t_count a k c : shown_count c = true -> in_int a c <= in_tokens a (count_toks k c).
Proof. destruct c as [[|p|p]|]; cbn [count_toks shown_count in_int]; intro H; try discriminate H; try apply Nat.le_0_l; sums; rewrite t_int; lia. Qed.
Lemma t_rel a j e ts : in_tokens a (rel_toks j e ts) = in_tokens a ts.
Proof. unfold rel_toks. destruct (_ || _)%bool; [apply in_tokens_paren|reflexivity]. Qed.
Lemma t_named a e : is_aliased_rel e = true -> in_tokens a (toks_n false e) <= in_tokens a (named_toks (toks_n false) e).
Proof.
  destruct e; intro H; try discriminate H. cbn [named_toks toks_n]. sums. rewrite !t_rel, t_commas, t_words.
  destruct cols as [|c l]; [sums; lia|]. rewrite in_tokens_paren, t_commas, t_words. lia.
Qed.
Lemma t_qattrs a q : with_lex q = true -> shown_qattrs q = true -> large a (toks_n false) (qattrs_kids q) ->
  own_qattrs a q + occs a (qattrs_kids q) <= in_tokens a (with_toks (toks_n false) q) + in_tokens a (constraint_toks (toks_n false) q).
Proof.
  destruct q as [wi ob off lim]. unfold with_lex, shown_qattrs, own_qattrs. cbn [constraint_toks qattrs_kids q_with q_offset q_limit].
  intros L C H. apply large_app in H as [Hw Ho]. apply t_orders in Ho. apply andb_prop in C as [C1 C2].
  apply (t_count a "OFFSET") in C1. apply (t_count a "LIMIT") in C2. rewrite occs_app. sums.
  assert (W : occs a wi <= in_tokens a (with_toks (toks_n false) (mkQ wi ob off lim))).
  { unfold with_toks. cbn [q_with]. assert (E : occs a wi <= list_sum (map (fun k => in_tokens a (named_toks (toks_n false) k)) wi)).
    { unfold occs. apply sum_le. intros k I. pose proof (Hw k I). rewrite forallb_forall in L. pose proof (t_named a k (L k I)). lia. }
    destruct wi as [|w wi]; [apply le_n|]. sums. rewrite t_commas, map_map. lia. }
  lia.
Qed.
Lemma t_p a cur left x : in_tokens a (if needs_parens cur left x then paren (toks_n false x) else toks_n false x) = in_tokens a (toks_n false x).
Proof. destruct (needs_parens cur left x); [apply in_tokens_paren|reflexivity]. Qed.
Lemma t_chain a l : forallb shown_opt l = true -> in_tokens a (chain_toks l) = list_sum (map (in_name a) l).
Proof.
  unfold chain_toks. rewrite t_join. induction l as [|[x|] l IH]; [reflexivity|..]; cbn [drop_none map forallb shown_opt]; intro H.
  - apply andb_prop in H as [H1 H2].
    change (in_tokens a [qid x] + list_sum (map (in_tokens a) (map (fun m => [qid m]) (drop_none l))) = in_name a (Some x) + list_sum (map (in_name a) l)).
    rewrite (IH H2). sums. rewrite t_qid by exact H1. cbn [in_name]. lia.
  - rewrite (IH H). reflexivity.
Qed.

(** * Objects *)
Lemma kept_toks a e : lexable e -> shown e -> forall neg, occ a e <= in_tokens a (toks_n neg e).
Proof.
  induction e as [e IH] using kids_ind. intros L G neg. rewrite occ_step.
  destruct L as [e L0 L]. destruct G as [e G0 G].
  assert (IH' : forall k, In k (kids e) -> forall neg, occ a k <= in_tokens a (toks_n neg k)) by (intros k I; apply IH; auto).
  assert (S : large a (toks_n false) (kids e)) by (intros k I; apply IH'; exact I). clear IH L G.
  destruct e; cbn [lex_here] in L0; try discriminate L0; cbn [toks_n kids own] in *; rewrite ?occs_cons, ?occs_app; change (occs a []) with 0.
  all: sums; rewrite ?t_commas, ?t_p, ?t_rel, ?t_words, ?t_word.
  all: try (cbn [shown_here] in G0; rewrite ?t_qid, ?t_sid by exact G0).
  all: try (apply large_sum in S; lia).
  all: try (pose proof (S _ (or_introl eq_refl)); lia).
  all: try (pose proof (S _ (or_introl eq_refl)); pose proof (S _ (or_intror (or_introl eq_refl))); lia).
  all: try (pose proof (S _ (or_introl eq_refl)); pose proof (S _ (or_intror (or_introl eq_refl))); pose proof (S _ (or_intror (or_intror (or_introl eq_refl)))); lia).
  - apply (t_lit a l t) in G0. lia.
  - apply andb_prop in G0 as [G1 G2]. destruct table as [|[|c s]|v]; try discriminate G2; cbn [own_tref tref_kids]; change (occs a []) with 0; sums; rewrite ?t_qid by assumption; lia.
  - destruct table as [|[|c s]|v]; try discriminate G0; cbn [own_tref tref_kids]; change (occs a []) with 0; sums; rewrite ?t_word; try lia. discriminate L0.
  - pose proof (S _ (or_introl eq_refl)). pose proof (t_commas a (map (fun c => [word_token c]) vars)) as T. rewrite t_words in T.
    destruct vars as [|x [|y l]]; rewrite ?in_tokens_paren, T; lia.
  - pose proof (S _ (or_introl eq_refl)). pose proof (IH' _ (or_introl eq_refl) true).
    destruct op; [| |destruct (negatable e)|]; sums; rewrite ?t_p; lia.
  - pose proof (S _ (or_introl eq_refl)). assert (T : large a (toks_n false) vs) by (intros k I; apply S; now right). apply large_sum in T. lia.
  - pose proof (S _ (or_introl eq_refl)). pose proof (S _ (or_intror (or_introl eq_refl))). rewrite occs_opt.
    destruct esc as [x|]; cbn [occ_opt]; [|lia]. pose proof (S _ (or_intror (or_intror (or_introl eq_refl)))). sums. lia.
  - apply large_app in S as [Sb S]. apply large_app in S as [Se Sv]. rewrite !occs_opt.
    assert (V : occ_opt a value <= in_tokens a match value with Some x => toks_n false x | None => [] end)
      by (destruct value as [x|]; [exact (Sv _ (or_introl eq_refl))|apply le_n]).
    assert (E : occ_opt a else_ <= in_tokens a match else_ with Some x => K "ELSE" :: toks_n false x | None => [] end)
      by (destruct else_ as [x|]; [pose proof (Se _ (or_introl eq_refl)); sums; cbn [occ_opt]; lia|apply le_n]).
    assert (B : occs a (concat (map (fun cv : node * node => [fst cv; snd cv]) branches))
                <= in_tokens a (concat (map (fun '(c, x) => K "WHEN" :: toks_n false c ++ K "THEN" :: toks_n false x) branches))); [|lia].
    clear - Sb. induction branches as [|[c x] bs IHb]; [apply le_n|]. cbn [map concat fst snd app] in *. rewrite !occs_cons. sums.
    pose proof (Sb _ (or_introl eq_refl)). pose proof (Sb _ (or_intror (or_introl eq_refl))). specialize (IHb (fun k I => Sb k (or_intror (or_intror I)))). lia.
  - apply andb_prop in G0 as [G1 G2]. apply large_app in S as [Sa Sf]. apply large_sum in Sa. apply (t_fopts a _ fo G1) in Sf.
    destruct (fn_bare f); cbn [negb orb] in G2.
    + destruct args; try discriminate G2. destruct fo as [[|] [] [] ig]; try discriminate G2. apply Nat.le_0_l.
    + unfold call_toks. sums. rewrite t_commas. lia.
  - pose proof (S _ (or_introl eq_refl)). assert (T : large a (toks_n false) (map o_value orderby)) by (intros k I; apply S; now right).
    apply t_orders_sum in T. lia.
  - apply andb_prop in G0 as [G1 G2]. apply andb_prop in L0 as [L1 L2].
    apply large_app in S as [S1 S]. apply large_app in S as [S2 S]. apply large_app in S as [S3 S]. apply large_app in S as [S4 S].
    apply large_app in S as [S5 S]. apply large_app in S as [S6 S7]. apply large_sum in S1. apply (t_qattrs a qa L2 G2) in S7. rewrite !occs_opt.
    assert (F : occ_opt a from_ <= in_tokens a (opt_toks [K "FROM"] (fun r => rel_toks false r (toks_n false r)) from_))
      by (destruct from_ as [x|]; [|apply le_n]; unfold opt_toks; sums; rewrite t_rel; pose proof (S2 _ (or_introl eq_refl)); cbn [occ_opt]; lia).
    assert (W : occ_opt a wh <= in_tokens a (opt_toks [K "WHERE"] (toks_n false) wh))
      by (destruct wh as [x|]; [|apply le_n]; unfold opt_toks; sums; pose proof (S3 _ (or_introl eq_refl)); cbn [occ_opt]; lia).
    assert (H : occ_opt a having <= in_tokens a (opt_toks [K "HAVING"] (toks_n false) having))
      by (destruct having as [x|]; [|apply le_n]; unfold opt_toks; sums; pose proof (S5 _ (or_introl eq_refl)); cbn [occ_opt]; lia).
    assert (B : occs a match gb with Some g => groupby_kids g | None => [] end <= in_tokens a (opt_toks [K "GROUP"; K "BY"] (groupby_toks (toks_n false)) gb))
      by (destruct gb as [g|]; [|apply le_n]; unfold opt_toks; sums; apply t_groupby in S4; lia).
    match goal with |- context [in_tokens a match windows with [] => [] | _ :: _ => ?t end] =>
      assert (N : list_sum (map (fun nw => same a (AName (fst nw)) + own_window a (snd nw)) windows)
                  + occs a (concat (map (fun nw : string * window node => window_kids (snd nw)) windows))
                  <= in_tokens a match windows with [] => [] | _ :: _ => t end) end.
    { assert (N : list_sum (map (fun nw => same a (AName (fst nw)) + own_window a (snd nw)) windows)
                  + occs a (concat (map (fun nw : string * window node => window_kids (snd nw)) windows))
                  <= list_sum (map (in_tokens a) (map (fun '(m, w) => word_token m :: K "AS" :: paren (window_toks (toks_n false) w)) windows))).
      { clear - G1 S6. rewrite occs_concat, !map_map. induction windows as [|[m w] ws IHw]; [apply le_n|]. cbn [map concat snd fst forallb] in *.
        apply andb_prop in G1 as [G0 G1]. apply large_app in S6 as [Sw S6]. specialize (IHw G1 S6). apply (t_window a _ w G0) in Sw.
        unfold list_sum in *. cbn [fold_right]. sums. rewrite t_word. lia. }
      destruct windows as [|w ws]; [apply Nat.le_0_l|]. sums. rewrite t_commas. lia. }
    lia.
  - destruct qa as [[] [] [] []]; try discriminate G0. cbn [own_qattrs q_offset q_limit in_int qattrs_kids map app].
    pose proof (S _ (or_introl eq_refl)). pose proof (S _ (or_intror (or_introl eq_refl))). change (occs a []) with 0. unfold own_qattrs. cbn [q_offset q_limit in_int]. lia.
  - pose proof (S _ (or_introl eq_refl)). assert (T : large a (toks_n false) (qattrs_kids qa)) by (intros k I; apply S; now right).
    apply (t_qattrs a qa L0 G0) in T. lia.
  - apply large_app in S as [Se Sq]. apply large_sum in Se. apply (t_qattrs a qa L0 G0) in Sq. lia.
  - apply andb_prop in G0 as [G0 G3]. apply andb_prop in G0 as [G1 G2]. rewrite t_chain; [unfold list_sum; cbn [map fold_right in_name]; lia|].
    cbn [forallb shown_opt]. now rewrite G1, G2, G3.
  - pose proof (S _ (or_introl eq_refl)). destruct cols as [|c cols]; sums; rewrite ?t_commas, ?t_words; change (in_names a []) with 0; lia.
  - pose proof (S _ (or_introl eq_refl)). pose proof (S _ (or_intror (or_introl eq_refl))).
    destruct crit as [[l|x]|]; cbn [crit_toks jcrit_kids own_crit] in *; rewrite ?occs_cons; change (occs a []) with 0; sums; rewrite ?t_commas, ?t_words; try lia.
    pose proof (S _ (or_intror (or_intror (or_introl eq_refl)))). lia.
Qed.

(** * The property *)
(** Whatever name, integer or text is in an object is in its text, at least as often. *)
Theorem C74_printed : forall e o a, lexable e -> shown e -> occ a e <= in_tokens a (lex (sql e o)).
Proof. intros e o a L S. rewrite (lex_sql e o L). now apply kept_toks. Qed.
Print Assumptions C74_printed.
(** The same without counting, for the three kinds. *)
Theorem C74_names : forall e o x n, lexable e -> shown e -> within e x -> written x n -> exists t, In t (lex (sql e o)) /\ names n t.
Proof.
  intros e o x n L S W N. apply written_own in N. apply (occ_within (AName n)) in W. pose proof (C74_printed e o (AName n) L S).
  destruct (token_in (AName n) (lex (sql e o))) as (t & I & T); [lia|]. exists t. split; [exact I|now apply token_name].
Qed.
Print Assumptions C74_names.
Theorem C74_integers : forall e o z ty, lexable e -> shown e -> within e (NLit (LInt z) ty) ->
  exists ds, In (TInt ds) (lex (sql e o)) /\ Z.abs z = Z.of_N (digits 0 ds).
Proof.
  intros e o z ty L S W. apply (occ_within (AInt (Z.abs_N z))) in W. cbn [own in_lit] in W. rewrite same_self in W.
  pose proof (C74_printed e o (AInt (Z.abs_N z)) L S).
  destruct (token_in (AInt (Z.abs_N z)) (lex (sql e o))) as (t & I & T); [lia|].
  destruct t as [| | | | | | | |ds| | | |]; cbn [in_token same] in T; try lia. exists ds. split; [exact I|].
  destruct (N.eqb_spec (Z.abs_N z) (digits 0 ds)); lia.
Qed.
Print Assumptions C74_integers.
(** What the format command writes has everything that was read. *)
Theorem C74_format : forall en t q t' a,
  query_from_sql en t = Ok q -> lexable q -> shown q -> format en CQuery t = Ok t' ->
  occ a q <= in_tokens a (lex t') /\ occ a q <= in_tokens a (lex t).
Proof.
  intros en t q t' a H L S F. unfold format, get_sql_object, get_query in F. rewrite H in F. cbn [bind] in F.
  destruct (resolve empty_schema q) as [[out q']|x] eqn:R; [|discriminate F]. cbn [bind object_text] in F.
  rewrite (C53_text _ _ _ _ pretty R) in F. apply to_sql_text in F as ->.
  split; [now apply C74_printed|now apply (C70_query en)].
Qed.
Print Assumptions C74_format.

(** * Cases *)
(** Deciding it on an object of known depth. *)
Fixpoint shown_n (n : nat) (e : node) : bool :=
  match n with O => false | Datatypes.S n => (shown_here e && forallb (shown_n n) (kids e))%bool end.
Lemma shown_dec n : forall e, shown_n n e = true -> shown e.
Proof.
  induction n as [|n IH]; intros e H; [discriminate H|]. cbn [shown_n] in H. apply andb_prop in H as [A B].
  constructor; [exact A|]. rewrite forallb_forall in B. auto.
Qed.
Local Definition case_text := "WITH r AS (SELECT x.a, 'v' FROM s.x) SELECT a, -5 AS b, NULLIF(c, a -> a + 5) FROM r JOIN ""q"" USING (a) LIMIT 5".
Example C74_case :
  match query_from_sql full_env case_text with
  | Ok q => lexable_n 12 q = true /\ shown_n 12 q = true
            /\ map (fun a => (occ a q, in_tokens a (lex (sql q pretty)))) [AName "a"; AName "b"; AName "x"; AName "q"; AName "z"; AInt 5; AText "v"]
            = [(5, 5); (1, 1); (2, 2); (1, 1); (0, 0); (3, 3); (1, 1)]
  | Err _ => False
  end.
Proof. vm_compute. repeat split. Qed.

(** Each of the exceptions is one: these objects have tokens, but their text has lost
    something. *)
Local Definition x := NField "x" TRNone unknown.
Local Definition none : qattrs node := mkQ [] [] None None.
Local Definition one (q : qattrs node) := NValues [NLit (LInt 1) integer] q.
Local Definition losing : list (node * atom) :=
  [ (NLit (LStr "''a") (TVarchar (Some 3%Z)), AText "''a");
    (NField """""a" TRNone unknown, AName """""a");
    (NField "x" (TRStr "") unknown, AName "");
    (one (mkQ [] [] (Some 0%Z) None), AInt 0);
    (one (mkQ [] [] None (Some 0%Z)), AInt 0);
    (NSetQuery OpUnion (one none) (one none) true (mkQ [] [mkOrder x false false] None None), AName "x");
    (NSetQuery OpUnion (one none) (one none) true (mkQ [] [] None (Some 7%Z)), AInt 7);
    (NSetQuery OpUnion (one none) (one none) true (mkQ [NAliasedRel (one none) "w" []] [] None None), AName "w");
    (NFunc FCurrentDate [x] (mkFopts [] None None false), AName "x");
    (NFunc FSum [NLit (LInt 1) integer] (mkFopts [] None (Some (mkWindow (Some "") [] [] FTRows BCurrent BCurrent)) false), AName "") ].
Theorem C74_all_refuted : forall e a, In (e, a) losing ->
  lexable e /\ forall o, in_tokens a (lex (sql e o)) < occ a e.
Proof.
  assert (D : forallb (fun ea => lexable_n 5 (fst ea) && Nat.ltb (in_tokens (snd ea) (toks (fst ea))) (occ (snd ea) (fst ea)))%bool losing = true)
    by (vm_compute; reflexivity).
  intros e a I. rewrite forallb_forall in D. specialize (D _ I). cbn [fst snd] in D. apply andb_prop in D as [A B].
  apply lexable_dec in A. split; [exact A|]. intro o. rewrite (lex_sql e o A). now apply Nat.ltb_lt.
Qed.
Print Assumptions C74_all_refuted.
