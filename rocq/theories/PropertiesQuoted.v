(** C73: printing adds no names, so neither does formatting. *)
From Coq Require Import String Ascii List ZArith NArith Bool Arith Lia.
From Verif Require Import PyStr Types TypeFacts Inference Printer Lexer LexFacts TypeParser TypeRoundTrip Functions Ast Walk Tokens NodeFacts Sql SqlReads Parser
  Schema Cli Atoms PropertiesReads PropertiesAtoms PropertiesCli.
Import ListNotations.
Open Scope nat_scope.
Open Scope string_scope.
Open Scope list_scope.

(** * Specification *)
(** How often the name is written in quotation marks. *)
Definition is_quoted (n : string) (t : token) : nat :=
  match t with TQuoted q => if String.eqb q (quote_identifier n) then 1 else 0 | _ => 0 end.
Definition quoted (n : string) (ts : list token) : nat := list_sum (map (is_quoted n) ts).

(** * Sums *)
Lemma q_nil n : quoted n [] = 0. Proof. reflexivity. Qed.
Lemma q_cons n t ts : quoted n (t :: ts) = is_quoted n t + quoted n ts. Proof. reflexivity. Qed.
Lemma q_app n a b : quoted n (a ++ b) = quoted n a + quoted n b.
Proof. unfold quoted. now rewrite map_app, list_sum_app. Qed.
Lemma q_paren n ts : quoted n (paren ts) = quoted n ts.
Proof. unfold paren. rewrite q_cons, q_app, q_cons, q_nil. cbn [is_quoted]. lia. Qed.
Lemma q_join n d l : quoted n d = 0 -> quoted n (tjoin d l) = list_sum (map (quoted n) l).
Proof.
  intro D. induction l as [|x [|y l] IH]; [reflexivity|cbn [tjoin map]; unfold list_sum; cbn [fold_right]; lia|].
  change (tjoin d (x :: y :: l)) with (x ++ d ++ tjoin d (y :: l)). rewrite !q_app, D, IH. reflexivity.
Qed.
Lemma q_commas n l : quoted n (commas l) = list_sum (map (quoted n) l).
Proof. apply q_join. reflexivity. Qed.
Lemma q_word n w : is_quoted n (word_token w) = 0.
Proof. unfold word_token. destruct (mem w keywords), (mem w upper_keywords), (mem (upper w) keywords && String.eqb w (lower w))%bool; reflexivity. Qed.
Lemma quote_same a b : quote_identifier a = quote_identifier b -> a = b.
Proof.
  unfold quote_identifier. intro H.
  assert (L : forall x y c, (x ++ String c "")%string = (y ++ String c "")%string -> x = y).
  { induction x as [|p x IH]; intros [|q y] c E; cbn in E; auto.
    - injection E as -> E. destruct y; discriminate E.
    - injection E as <- E. destruct x; discriminate E.
    - injection E as <- E. f_equal. now apply (IH y c). }
  cbn in H. injection H as H. now apply L in H.
Qed.
Lemma q_qid n m : is_quoted n (qid m) = same (AName n) (AName m).
Proof.
  cbn [is_quoted qid same]. destruct (String.eqb_spec n m) as [->|D]; [now rewrite String.eqb_refl|].
  destruct (String.eqb_spec (quote_identifier m) (quote_identifier n)) as [E|]; [|reflexivity]. apply quote_same in E. congruence.
Qed.
Lemma q_words n l : list_sum (map (quoted n) (map (fun c => [word_token c]) l)) = 0.
Proof. induction l as [|c l IH]; [reflexivity|]. cbn [map]. change (quoted n [word_token c] + list_sum (map (quoted n) (map (fun c => [word_token c]) l)) = 0).
  rewrite IH, q_cons, q_word, q_nil. reflexivity. Qed.
Lemma q_int n z : quoted n (int_toks z) = 0. Proof. unfold int_toks. destruct (z <? 0)%Z; reflexivity. Qed.
Lemma q_lit n l : quoted n (lit_toks l) = 0.
Proof. destruct l as [|b|z|d|f|s]; cbn [lit_toks]; try reflexivity; [apply q_int|]. unfold dec_toks. destruct (dneg d); reflexivity. Qed.
Lemma q_time n low x p z : quoted n (timelike_toks low x p z) = 0.
Proof. unfold timelike_toks, wt. destruct p, z; rewrite ?q_cons, ?q_app, ?q_cons, ?q_word, ?q_nil; reflexivity. Qed.
Lemma q_type n low t : quoted n (type_toks low t) = 0.
Proof.
  induction t as [s|p s|m|m|p z|p z|k|t IH|k v IHk IHv|l IH|t IH] using dtype_ind'; cbn [type_toks]; unfold wt; try apply q_time;
    try (destruct m); rewrite ?q_cons, ?q_word, ?q_app, ?q_cons, ?q_word, ?q_app, ?q_nil; cbn [is_quoted Ztok]; rewrite ?q_cons, ?q_nil; cbn [is_quoted]; try lia.
  rewrite q_join by reflexivity. rewrite map_map.
  assert (E : list_sum (map (fun x => quoted n (type_toks low x)) l) = 0); [|lia].
  induction IH as [|x l X F IHF]; [reflexivity|]. cbn [map]. change (quoted n (type_toks low x) + list_sum (map (fun x => quoted n (type_toks low x)) l) = 0).
  rewrite IHF. lia.
Qed.
Lemma q_name n g : quoted n (lex (fn_name g)) = 0.
Proof. destruct g; vm_compute; reflexivity. Qed.

(** * Parts *)
Definition small (n : string) (f : node -> list token) (l : list node) : Prop :=
  forall k, In k l -> quoted n (f k) <= occ (AName n) k.
Lemma small_app n f a b : small n f (a ++ b) -> small n f a /\ small n f b.
Proof. intro H. split; intros k I; apply H, in_or_app; auto. Qed.
Lemma small_sum n f l : small n f l -> list_sum (map (quoted n) (map f l)) <= occs (AName n) l.
Proof.
  induction l as [|x l IH]; intro H; [apply le_n|]. rewrite occs_cons. cbn [map].
  change (quoted n (f x) + list_sum (map (quoted n) (map f l)) <= occ (AName n) x + occs (AName n) l).
  pose proof (H x (or_introl eq_refl)). specialize (IH (fun k I => H k (or_intror I))). lia.
Qed.
Lemma small_one n f k : small n f [k] -> quoted n (f k) <= occs (AName n) [k].
Proof. intro H. rewrite occs_cons. change (occs (AName n) []) with 0. pose proof (H k (or_introl eq_refl)). lia. Qed.
Lemma sum_le {A} (f g : A -> nat) l : (forall x, In x l -> f x <= g x) -> list_sum (map f l) <= list_sum (map g l).
Proof.
  induction l as [|x l IH]; intro H; [apply le_n|]. cbn [map].
  change (f x + list_sum (map f l) <= g x + list_sum (map g l)). pose proof (H x (or_introl eq_refl)).
  specialize (IH (fun k I => H k (or_intror I))). lia.
Qed.
Ltac count := repeat first [rewrite q_cons | rewrite q_app | rewrite q_paren | rewrite q_commas | rewrite q_word | rewrite q_qid | rewrite q_words | rewrite q_nil]; cbn [is_quoted K sid].
Lemma q_order n f o : small n f [o_value o] -> quoted n (order_toks f o) <= occs (AName n) [o_value o].
Proof.
  destruct o as [v d u]. cbn [o_value order_toks]. intro H. apply small_one in H. rewrite !q_app.
  destruct d, u; rewrite ?q_cons, ?q_nil; cbn [is_quoted K]; lia.
Qed.
Lemma q_orders_sum n f l : small n f (map o_value l) -> list_sum (map (quoted n) (map (order_toks f) l)) <= occs (AName n) (map o_value l).
Proof.
  induction l as [|o l IH]; intro H; [apply le_n|]. cbn [map] in *. rewrite occs_cons.
  change (quoted n (order_toks f o) + list_sum (map (quoted n) (map (order_toks f) l)) <= occ (AName n) (o_value o) + occs (AName n) (map o_value l)).
  assert (A : small n f [o_value o]) by (intros k [<-|[]]; apply H; now left). apply q_order in A. rewrite occs_cons in A. change (occs (AName n) []) with 0 in A.
  specialize (IH (fun k I => H k (or_intror I))). lia.
Qed.
Lemma q_orders n f l : small n f (map o_value l) -> quoted n (orders_toks f l) <= occs (AName n) (map o_value l).
Proof.
  intro H. destruct l as [|o l]; [apply le_n|]. unfold orders_toks. count. apply q_orders_sum in H. exact H.
Qed.
Lemma q_bound n f b : small n f (bound_kids b) -> quoted n (bound_toks f b) <= occs (AName n) (bound_kids b).
Proof. destruct b as [d v|d|]; cbn [bound_toks bound_kids]; intro H; count; [|lia..]. apply small_one in H. lia. Qed.
Lemma q_window n f w : small n f (window_kids w) -> quoted n (window_toks f w) <= occs (AName n) (window_kids w).
Proof.
  destruct w as [p ob ps fr st en]. cbn [window_toks window_kids]. intro H.
  apply small_app in H as [Ho H]. apply small_app in H as [Hp H]. apply small_app in H as [Hs He].
  apply q_orders in Ho. apply small_sum in Hp. apply q_bound in Hs, He. rewrite !occs_app, !q_app, !q_cons, !q_app, !q_cons.
  assert (P : quoted n match p with None | Some "" => [] | Some m => [word_token m] end = 0)
    by (destruct p as [[|c m]|]; try reflexivity; rewrite q_cons, q_word; reflexivity).
  assert (Q : quoted n match ps with [] => [] | _ :: _ => K "PARTITION" :: K "BY" :: commas (map f ps) end <= occs (AName n) ps)
    by (destruct ps as [|x ps]; [apply le_n|]; rewrite !q_cons, q_commas; exact Hp).
  rewrite P. cbn [is_quoted K]. lia.
Qed.
Lemma q_fopts n f x : small n f (fopts_kids x) -> quoted n (orders_toks f (fo_orderby x)) + quoted n (fopts_toks f x) <= occs (AName n) (fopts_kids x).
Proof.
  destruct x as [ob fi wi ig]. cbn [fopts_toks fopts_kids fo_orderby]. intro H.
  apply small_app in H as [Ho H]. apply small_app in H as [Hf Hw]. apply q_orders in Ho. rewrite !occs_app, !q_app.
  assert (F : quoted n (filter_toks f fi) <= occs (AName n) (opt_kids fi)).
  { destruct fi as [v|]; [|apply le_n]. cbn [filter_toks opt_kids] in *. apply small_one in Hf. count. lia. }
  assert (W : quoted n (over_toks f wi) <= occs (AName n) match wi with Some w => window_kids w | None => [] end).
  { destruct wi as [w|]; [|apply le_n]. cbn [over_toks]. apply q_window in Hw. count. lia. }
  destruct ig; rewrite ?q_cons, ?q_nil; cbn [is_quoted K]; lia.
Qed.
Lemma q_set n f l : small n f l -> quoted n (set_toks f l) <= occs (AName n) l.
Proof.
  intro H. destruct l as [|x [|y l]]; unfold set_toks; [apply le_n|now apply small_one|]. rewrite q_paren, q_commas. now apply small_sum.
Qed.
Lemma q_group n f g : small n f (group_kids g) -> quoted n (group_toks f g) <= occs (AName n) (group_kids g).
Proof.
  destruct g as [l|ll|l|l]; cbn [group_toks group_kids]; intro H; [now apply q_set| |count; now apply small_sum..].
  count. rewrite occs_concat, map_map. cbn [Nat.add]. apply sum_le. intros l I. apply q_set. intros k Hk. apply H. apply in_concat. eauto.
Qed.
Lemma q_groupby n f g : small n f (groupby_kids g) -> quoted n (groupby_toks f g) <= occs (AName n) (groupby_kids g).
Proof.
  destruct g as [gs d]. cbn [groupby_toks groupby_kids]. intro H. rewrite q_app, q_commas, occs_concat, !map_map.
  assert (D : quoted n (if d then [K "DISTINCT"] else []) = 0) by (destruct d; reflexivity). rewrite D. cbn [Nat.add]. apply sum_le.
  intros g I. apply q_group. intros k Hk. apply H. apply in_concat. exists (group_kids g). split; [now apply in_map|exact Hk].
Qed.
Lemma q_count n k c : quoted n (count_toks k c) = 0.
Proof. destruct c as [[|p|p]|]; cbn [count_toks]; rewrite ?q_cons, ?q_int; reflexivity. Qed.
Lemma q_rel n j e ts : quoted n (rel_toks j e ts) = quoted n ts.
Proof. unfold rel_toks. destruct (_ || _)%bool; [apply q_paren|reflexivity]. Qed.
Lemma q_named n e : quoted n (named_toks (toks_n false) e) <= quoted n (toks_n false e).
Proof.
  destruct e; cbn [named_toks toks_n]; try apply Nat.le_0_l. rewrite !q_cons, !q_app, !q_cons, !q_rel, q_commas, q_words. cbn [is_quoted K]. lia.
Qed.
Lemma q_qattrs n q : small n (toks_n false) (qattrs_kids q) ->
  quoted n (with_toks (toks_n false) q) + quoted n (constraint_toks (toks_n false) q) <= occs (AName n) (qattrs_kids q).
Proof.
  destruct q as [wi ob off lim]. cbn [constraint_toks qattrs_kids]. intro H. apply small_app in H as [Hw Ho]. apply q_orders in Ho.
  rewrite occs_app, !q_app, !q_count.
  assert (W : quoted n (with_toks (toks_n false) (mkQ wi ob off lim)) <= occs (AName n) wi).
  { unfold with_toks. cbn [q_with]. destruct wi as [|w wi]; [apply le_n|]. rewrite q_cons, q_commas, map_map. cbn [is_quoted K Nat.add].
    unfold occs. apply sum_le. intros k I. pose proof (q_named n k). pose proof (Hw k I). lia. }
  lia.
Qed.

(** * Objects *)
Lemma q_p n cur left x : quoted n (if needs_parens cur left x then paren (toks_n false x) else toks_n false x) = quoted n (toks_n false x).
Proof. destruct (needs_parens cur left x); [apply q_paren|reflexivity]. Qed.
Lemma q_binop n neg op : quoted n (binop_toks neg op) = 0.
Proof. destruct neg, op; reflexivity. Qed.
Lemma q_if n (b : bool) k : is_quoted n k = 0 -> quoted n (if b then [k] else []) = 0.
Proof. intro H. destruct b; [|reflexivity]. rewrite q_cons, H. reflexivity. Qed.
Lemma q_chain n l : quoted n (chain_toks l) = list_sum (map (in_name (AName n)) l).
Proof.
  unfold chain_toks. rewrite q_join by reflexivity. induction l as [|[x|] l IH]; [reflexivity|..]; cbn [drop_none map].
  - change (quoted n [qid x] + list_sum (map (quoted n) (map (fun m => [qid m]) (drop_none l))) = in_name (AName n) (Some x) + list_sum (map (in_name (AName n)) l)).
    rewrite IH, q_cons, q_qid, q_nil. cbn [in_name]. lia.
  - rewrite IH. reflexivity.
Qed.
Lemma quoted_toks n e : forall neg, quoted n (toks_n neg e) <= occ (AName n) e.
Proof.
  induction e as [e IH] using kids_ind. intro neg. rewrite occ_step.
  assert (S : small n (toks_n false) (kids e)) by (intros k I; apply IH; exact I).
  destruct e; cbn [toks_n kids own] in *; rewrite ?occs_cons, ?occs_app; change (occs (AName n) []) with 0.
  all: count; rewrite ?q_p, ?q_rel, ?q_lit, ?q_type, ?q_binop, ?q_name.
  all: try (apply small_sum in S; lia).
  all: try (pose proof (S _ (or_introl eq_refl)); lia).
  all: try (pose proof (S _ (or_introl eq_refl)); pose proof (S _ (or_intror (or_introl eq_refl))); lia).
  - destruct table as [|[|c s]|v]; cbn [own_tref]; count; lia.
  - destruct table as [|[|c s]|v]; count; lia.
  - pose proof (S _ (or_introl eq_refl)). destruct vars as [|x [|y l]]; count; lia.
  - pose proof (S _ (or_introl eq_refl)). pose proof (IH _ (or_introl eq_refl) true).
    destruct op; [| |destruct (negatable e)|destruct neg]; count; rewrite ?q_p; lia.
  - pose proof (S _ (or_introl eq_refl)). pose proof (S _ (or_intror (or_introl eq_refl))). pose proof (S _ (or_intror (or_intror (or_introl eq_refl)))).
    rewrite q_if by reflexivity. lia.
  - pose proof (S _ (or_introl eq_refl)). pose proof (S _ (or_intror (or_introl eq_refl))). rewrite q_if by reflexivity. lia.
  - pose proof (S _ (or_introl eq_refl)). assert (T : small n (toks_n false) vs) by (intros k I; apply S; now right). apply small_sum in T.
    rewrite q_if by reflexivity. lia.
  - pose proof (S _ (or_introl eq_refl)). pose proof (S _ (or_intror (or_introl eq_refl))). rewrite q_if by reflexivity. rewrite occs_opt.
    destruct esc as [x|]; cbn [occ_opt]; [|count; lia]. pose proof (S _ (or_intror (or_intror (or_introl eq_refl)))). count. lia.
  - apply small_app in S as [Sb S]. apply small_app in S as [Se Sv]. rewrite !occs_opt.
    assert (V : quoted n match value with Some x => toks_n false x | None => [] end <= occ_opt (AName n) value)
      by (destruct value as [x|]; [exact (Sv _ (or_introl eq_refl))|apply le_n]).
    assert (E : quoted n match else_ with Some x => K "ELSE" :: toks_n false x | None => [] end <= occ_opt (AName n) else_)
      by (destruct else_ as [x|]; [exact (Se _ (or_introl eq_refl))|apply le_n]).
    assert (B : quoted n (concat (map (fun '(c, x) => K "WHEN" :: toks_n false c ++ K "THEN" :: toks_n false x) branches))
                <= occs (AName n) (concat (map (fun cv : node * node => [fst cv; snd cv]) branches))); [|lia].
    clear - Sb. induction branches as [|[c x] bs IHb]; [apply le_n|]. cbn [map concat fst snd app] in *. rewrite !occs_cons. count.
    pose proof (Sb _ (or_introl eq_refl)). pose proof (Sb _ (or_intror (or_introl eq_refl))). specialize (IHb (fun k I => Sb k (or_intror (or_intror I)))). lia.
  - destruct (fn_bare f); [rewrite q_name; lia|]. unfold call_toks. count. rewrite q_name. apply small_app in S as [Sa Sf].
    apply small_sum in Sa. apply q_fopts in Sf. lia.
  - destruct (precision =? 3)%Z; count; rewrite ?q_name, ?q_int; lia.
  - pose proof (S _ (or_introl eq_refl)). assert (T : small n (toks_n false) (map o_value orderby)) by (intros k I; apply S; now right).
    apply q_orders_sum in T. destruct (sep =? " "), overflow as [[[] fi]|]; unfold overflow_toks; count; lia.
  - apply small_app in S as [S1 S]. apply small_app in S as [S2 S]. apply small_app in S as [S3 S]. apply small_app in S as [S4 S].
    apply small_app in S as [S5 S]. apply small_app in S as [S6 S7]. apply small_sum in S1. apply q_qattrs in S7. rewrite q_if by reflexivity. rewrite !occs_opt.
    assert (F : quoted n (opt_toks [K "FROM"] (fun r => rel_toks false r (toks_n false r)) from_) <= occ_opt (AName n) from_)
      by (destruct from_ as [x|]; [|apply le_n]; unfold opt_toks; count; rewrite q_rel; exact (S2 _ (or_introl eq_refl))).
    assert (W : quoted n (opt_toks [K "WHERE"] (toks_n false) wh) <= occ_opt (AName n) wh)
      by (destruct wh as [x|]; [|apply le_n]; unfold opt_toks; count; exact (S3 _ (or_introl eq_refl))).
    assert (H : quoted n (opt_toks [K "HAVING"] (toks_n false) having) <= occ_opt (AName n) having)
      by (destruct having as [x|]; [|apply le_n]; unfold opt_toks; count; exact (S5 _ (or_introl eq_refl))).
    assert (G : quoted n (opt_toks [K "GROUP"; K "BY"] (groupby_toks (toks_n false)) gb) <= occs (AName n) match gb with Some g => groupby_kids g | None => [] end)
      by (destruct gb as [g|]; [|apply le_n]; unfold opt_toks; count; apply q_groupby; exact S4).
    match goal with |- context [quoted n match windows with [] => [] | _ :: _ => ?t end] =>
      assert (N : quoted n match windows with [] => [] | _ :: _ => t end <= occs (AName n) (concat (map (fun nw : string * window node => window_kids (snd nw)) windows))) end.
    { assert (N : list_sum (map (quoted n) (map (fun '(m, w) => word_token m :: K "AS" :: paren (window_toks (toks_n false) w)) windows))
                  <= occs (AName n) (concat (map (fun nw : string * window node => window_kids (snd nw)) windows))).
      { rewrite occs_concat, !map_map. apply sum_le. intros [m w] I. cbn [snd]. count. apply q_window. intros k Hk. apply S6. apply in_concat.
        exists (window_kids w). split; [|exact Hk]. apply in_map_iff. exists (m, w). auto. }
      destruct windows as [|w ws]; [apply le_n|]. rewrite q_cons, q_commas. exact N. }
    lia.
  - pose proof (S _ (or_introl eq_refl)). pose proof (S _ (or_intror (or_introl eq_refl))). unfold set_op_toks. count. lia.
  - pose proof (S _ (or_introl eq_refl)). assert (T : small n (toks_n false) (qattrs_kids qa)) by (intros k I; apply S; now right).
    apply q_qattrs in T. lia.
  - apply small_app in S as [Se Sq]. apply small_sum in Se. apply q_qattrs in Sq. lia.
  - rewrite q_chain. unfold list_sum. cbn [map fold_right in_name]. lia.
  - pose proof (S _ (or_introl eq_refl)). destruct cols as [|c cols]; count; lia.
  - pose proof (S _ (or_introl eq_refl)). pose proof (S _ (or_intror (or_introl eq_refl))). rewrite q_if by reflexivity.
    assert (J : quoted n (join_toks jt) = 0) by (destruct jt; reflexivity). rewrite J.
    destruct crit as [[l|x]|]; cbn [crit_toks jcrit_kids] in *; rewrite ?occs_cons; count; try lia.
    pose proof (S _ (or_intror (or_intror (or_introl eq_refl)))). lia.
Qed.

(** * The property *)
(** The text printed for an object has a name between quotation marks at most as often as
    the object has the name. *)
Theorem C73_printed : forall e o n, lexable e -> quoted n (lex (sql e o)) <= occ (AName n) e.
Proof. intros e o n H. rewrite (lex_sql e o H). apply quoted_toks. Qed.
Print Assumptions C73_printed.

Lemma to_sql_text o e s : to_sql o e = Ok s -> s = sql e o.
Proof.
  unfold to_sql. destruct (py_assert (Nat.ltb (ospaces o) 80)); cbn [bind]; [|discriminate]. destruct (printable e); cbn [bind]; [|discriminate].
  congruence.
Qed.
(** So formatting a text writes no name that the text does not have, and none more often.
    Nothing is asked of the object but that its text has its tokens. *)
Theorem C73_format_expression : forall en t e t' n,
  expression_from_sql en t = Ok e -> lexable e -> format en CExpression t = Ok t' ->
  quoted n (lex t') <= in_tokens (AName n) (lex t).
Proof.
  intros en t e t' n H L F. unfold format, get_sql_object in F. rewrite H in F. cbn [bind object_text] in F.
  apply to_sql_text in F as ->.
  pose proof (C73_printed e pretty n L). pose proof (C70_expression en t e (AName n) H). lia.
Qed.
Print Assumptions C73_format_expression.
Theorem C73_format_query : forall en t q t' n,
  query_from_sql en t = Ok q -> lexable q -> format en CQuery t = Ok t' ->
  quoted n (lex t') <= in_tokens (AName n) (lex t).
Proof.
  intros en t q t' n H L F. unfold format, get_sql_object, get_query in F. rewrite H in F. cbn [bind] in F.
  destruct (resolve empty_schema q) as [[out q']|x] eqn:R; [|discriminate F]. cbn [bind object_text] in F.
  rewrite (C53_text _ _ _ _ pretty R) in F. apply to_sql_text in F as ->.
  pose proof (C73_printed q pretty n L). pose proof (C70_query en t q (AName n) H). lia.
Qed.
Print Assumptions C73_format_query.

(** * Cases *)
Local Definition case_text := "SELECT x.a, -5 AS b, b + ""q r"" FROM s.x JOIN y ON x.a = y.""a"" WHERE a IS NOT NULL".
Example C73_case :
  match query_from_sql full_env case_text, format full_env CQuery case_text with
  | Ok q, Ok t' => lexable_n 10 q = true
      /\ map (fun n => (quoted n (lex t'), in_tokens (AName n) (lex case_text))) ["a"; "b"; "q r"; "x"; "s"; "z"]
         = [(4, 4); (2, 2); (1, 1); (3, 3); (1, 1); (0, 0)]
  | _, _ => False
  end.
Proof. vm_compute. split; reflexivity. Qed.
