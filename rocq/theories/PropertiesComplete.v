(** C77: the text of an object has at least as many tokens as the object has objects in
    it: printing leaves no part out. *)
From Coq Require Import String Ascii List ZArith NArith Bool Arith Lia.
From Verif Require Import PyStr Types TypeFacts Inference Printer Lexer LexFacts TypeParser TypeRoundTrip Functions Ast Walk Tokens NodeFacts Sql SqlReads
  Parser ParseRel Schema Cli Grammar ReadTokens Size PropertiesReads PropertiesCli PropertiesQuoted PropertiesSize.
Import ListNotations.
Open Scope nat_scope.
Open Scope string_scope.
Open Scope list_scope.

(** * Specification *)
(** The objects whose text leaves a part out: NOT over = or <> (printed as <> or =), a set
    operation with WITH or ORDER BY of its own, and a function that is written without
    parentheses but has arguments (expression.py 432-466, 576-597, relation.py 311-321). *)
Definition complete_here (e : node) : bool :=
  match e with
  | NUn UNot (NBin (BEq | BNe) _ _) => false
  | NSetQuery _ _ _ _ (mkQ [] [] _ _) => true
  | NSetQuery _ _ _ _ _ => false
  | NFunc f [] (mkFopts [] None None _) => true
  | NFunc f _ _ => negb (fn_bare f)
  | _ => true
  end.
Inductive complete : node -> Prop :=
| complete_node e : complete_here e = true -> (forall x, In x (kids e) -> complete x) -> complete e.

(** * Tokens *)
Ltac sums := repeat first [rewrite app_length | rewrite len_paren | progress cbn [length]].
Lemma t_join s l : list_sum (map (@length token) l) <= length (tjoin [TSym s] l).
Proof.
  induction l as [|x [|y l] IH]; [apply le_n|cbn [tjoin map]; unfold list_sum; cbn [fold_right]; lia|].
  change (tjoin [TSym s] (x :: y :: l)) with (x ++ [TSym s] ++ tjoin [TSym s] (y :: l)). rewrite !app_length.
  change (list_sum (map (@length token) (x :: y :: l))) with (length x + list_sum (map (@length token) (y :: l))). lia.
Qed.
Lemma t_commas l : list_sum (map (@length token) l) <= length (commas l).
Proof. apply t_join. Qed.
Lemma t_lit l t : lex_here (NLit l t) = true -> 1 <= length (lit_toks l).
Proof.
  destruct l as [|b|z|d|f|s]; cbn [lex_here lit_lex lit_toks]; intro H; try discriminate H; try apply le_n.
  - unfold int_toks. destruct (Z.ltb z 0); cbn [length]; lia.
  - unfold dec_toks. repeat match goal with |- context [if ?b then _ else _] => destruct b end; sums; lia.
Qed.
(** What there is besides: NOT inside a predicate, and the parentheses around columns. *)
Definition inner (neg : bool) (e : node) : nat :=
  match e with
  | NBin (BEq | BNe) _ _ => 0
  | NAliasedRel _ _ (_ :: _) => 1
  | _ => if (neg && negatable e)%bool then 1 else 0
  end.

Ltac low := repeat match goal with
  | |- context [length (commas ?l)] => let H := fresh "C" in pose proof (t_commas l) as H; revert H; generalize (length (commas l)); intros
  end.

(** * Parts *)
Definition large (f : node -> list token) (l : list node) : Prop := forall k, In k l -> size k <= length (f k).
Lemma large_app f x y : large f (x ++ y) -> large f x /\ large f y.
Proof. intro H. split; intros k I; apply H, in_or_app; auto. Qed.
Lemma large_sum f l : large f l -> sizes l <= list_sum (map (@length token) (map f l)).
Proof. intro H. rewrite map_map. unfold sizes. apply sum_le. exact H. Qed.
Lemma large_one f k : large f [k] -> sizes [k] <= length (f k).
Proof. intro H. rewrite sizes_cons. change (sizes []) with 0. pose proof (H k (or_introl eq_refl)). lia. Qed.
Lemma t_order f o : large f [o_value o] -> size (o_value o) <= length (order_toks f o).
Proof. destruct o as [v d u]. cbn [o_value order_toks]. intro H. pose proof (H v (or_introl eq_refl)). sums. lia. Qed.
Lemma t_orders_sum f l : large f (map o_value l) -> sizes (map o_value l) <= list_sum (map (@length token) (map (order_toks f) l)).
Proof.
  intro H. unfold sizes. rewrite !map_map. apply sum_le. intros o I. apply t_order. intros k [<-|[]]. apply H. now apply in_map.
Qed.
Lemma t_orders f l : large f (map o_value l) -> sizes (map o_value l) <= length (orders_toks f l).
Proof. intro H. destruct l as [|o l]; [apply le_n|]. unfold orders_toks. sums. apply t_orders_sum in H. low. lia. Qed.
Lemma t_bound f b : large f (bound_kids b) -> sizes (bound_kids b) <= length (bound_toks f b).
Proof. destruct b as [d v|d|]; cbn [bound_toks bound_kids]; intro H; [|apply Nat.le_0_l..]. apply large_one in H. sums. lia. Qed.
Lemma t_window f w : large f (window_kids w) -> sizes (window_kids w) <= length (window_toks f w).
Proof.
  destruct w as [p ob ps fr st en]. cbn [window_toks window_kids]. intros H.
  apply large_app in H as [Ho H]. apply large_app in H as [Hp H]. apply large_app in H as [Hs He].
  apply t_orders in Ho. apply large_sum in Hp. apply t_bound in Hs, He. rewrite !sizes_app. sums.
  assert (Q : sizes ps <= length match ps with [] => [] | _ :: _ => K "PARTITION" :: K "BY" :: commas (map f ps) end)
    by (destruct ps as [|x ps]; [apply le_n|]; sums; low; lia).
  lia.
Qed.
Lemma t_fopts f x : large f (fopts_kids x) ->
  sizes (fopts_kids x) <= length (orders_toks f (fo_orderby x)) + length (fopts_toks f x).
Proof.
  destruct x as [ob fi wi ig]. cbn [fopts_toks fopts_kids fo_orderby]. intros H.
  apply large_app in H as [Ho H]. apply large_app in H as [Hf Hw]. apply t_orders in Ho. rewrite !sizes_app. sums.
  assert (F : sizes (opt_kids fi) <= length (filter_toks f fi)).
  { destruct fi as [v|]; [|apply le_n]. cbn [filter_toks opt_kids] in *. apply large_one in Hf. sums. lia. }
  assert (W : sizes match wi with Some w => window_kids w | None => [] end <= length (over_toks f wi)).
  { destruct wi as [w|]; [|apply le_n]. cbn [over_toks]. apply (t_window f w) in Hw. sums. lia. }
  lia.
Qed.
Lemma t_set f l : large f l -> sizes l <= length (set_toks f l).
Proof.
  intro H. destruct l as [|x [|y l]]; unfold set_toks; [apply Nat.le_0_l|now apply large_one|]. apply large_sum in H. sums. low. lia.
Qed.
Lemma t_group f g : large f (group_kids g) -> sizes (group_kids g) <= length (group_toks f g).
Proof.
  destruct g as [l|ll|l|l]; cbn [group_toks group_kids]; intro H; [now apply t_set| |apply large_sum in H; sums; low; lia..].
  assert (E : list_sum (map sizes ll) <= list_sum (map (@length token) (map (set_toks f) ll))).
  { rewrite map_map. apply sum_le. intros l I. apply t_set. intros k Hk. apply H. apply in_concat. eauto. }
  sums. rewrite sizes_concat. low. lia.
Qed.
Lemma t_groupby f g : large f (groupby_kids g) -> sizes (groupby_kids g) <= length (groupby_toks f g).
Proof.
  destruct g as [gs d]. cbn [groupby_toks groupby_kids]. intro H.
  assert (E : list_sum (map (fun g => sizes (group_kids g)) gs) <= list_sum (map (@length token) (map (group_toks f) gs))).
  { rewrite map_map. apply sum_le. intros g I. apply t_group. intros k Hk. apply H. apply in_concat. exists (group_kids g). split; [now apply in_map|exact Hk]. }
  sums. rewrite sizes_concat, map_map. low. lia.
Qed.
Lemma t_rel j e ts : length ts <= length (rel_toks j e ts).
Proof. unfold rel_toks. destruct (_ || _)%bool; sums; lia. Qed.
Lemma t_named e : is_aliased_rel e = true -> size e + inner false e <= length (toks_n false e) -> size e <= length (named_toks (toks_n false) e).
Proof.
  destruct e; intros H; try discriminate H. cbn [named_toks toks_n inner]. destruct cols as [|c l]; sums; cbn [andb]; [change (length (commas (map (fun c => [word_token c]) []))) with 0|]; lia.
Qed.
Lemma t_qattrs q : with_lex q = true -> (forall k, In k (qattrs_kids q) -> size k + inner false k <= length (toks_n false k)) ->
  sizes (qattrs_kids q) <= length (with_toks (toks_n false) q) + length (constraint_toks (toks_n false) q).
Proof.
  destruct q as [wi ob off lim]. unfold with_lex. cbn [constraint_toks qattrs_kids q_with].
  intros L H. assert (Hw : forall k, In k wi -> size k + inner false k <= length (toks_n false k)) by (intros k I; apply H, in_or_app; now left).
  assert (Ho : large (toks_n false) (map o_value ob)) by (intros k I; specialize (H k (in_or_app _ _ _ (or_intror I))); lia). apply t_orders in Ho. rewrite sizes_app. sums.
  assert (W : sizes wi <= length (with_toks (toks_n false) (mkQ wi ob off lim))).
  { unfold with_toks. cbn [q_with]. assert (E : sizes wi <= list_sum (map (@length token) (map (named_toks (toks_n false)) wi))).
    { rewrite map_map. unfold sizes. apply sum_le. intros k I. rewrite forallb_forall in L. exact (t_named k (L k I) (Hw k I)). }
    destruct wi as [|w wi]; [apply le_n|]. sums. low. lia. }
  lia.
Qed.
Lemma t_p cur left x : length (toks_n false x) <= length (if needs_parens cur left x then paren (toks_n false x) else toks_n false x).
Proof. destruct (needs_parens cur left x); sums; lia. Qed.

(** * Objects *)
Ltac operands := repeat match goal with
  | |- context [length (if needs_parens ?c ?l ?x then ?u else ?v)] =>
      let H := fresh "P" in pose proof (t_p c l x) as H; revert H; generalize (length (if needs_parens c l x then u else v)); intros
  | |- context [length (rel_toks ?j ?e ?ts)] =>
      let H := fresh "R" in pose proof (t_rel j e ts) as H; revert H; generalize (length (rel_toks j e ts)); intros
  end.
Lemma fn_len f : 1 <= length (lex (fn_name f)).
Proof. apply Nat.leb_le. destruct f; vm_compute; reflexivity. Qed.
Lemma whole_toks e : lexable e -> complete e -> forall neg, size e + inner neg e <= length (toks_n neg e).
Proof.
  induction e as [e IH] using kids_ind. intros L G neg. rewrite size_step.
  destruct L as [e L0 L]. destruct G as [e G0 G].
  assert (IH' : forall k, In k (kids e) -> forall neg, size k + inner neg k <= length (toks_n neg k)) by (intros k I; apply IH; auto).
  assert (S : large (toks_n false) (kids e)) by (intros k I; pose proof (IH' k I false); lia). clear IH L G.
  destruct e; cbn [lex_here] in L0; try discriminate L0; cbn [toks_n kids] in *; rewrite ?sizes_cons, ?sizes_app; change (sizes []) with 0.
  all: unfold inner; cbn [negatable andb]; rewrite ?andb_false_r, ?andb_true_r.
  all: sums; operands.
  all: try (apply large_sum in S; low; lia).
  all: try (pose proof (S _ (or_introl eq_refl)); low; lia).
  all: try (pose proof (S _ (or_introl eq_refl)); pose proof (S _ (or_intror (or_introl eq_refl))); low; lia).
  all: try (pose proof (S _ (or_introl eq_refl)); pose proof (S _ (or_intror (or_introl eq_refl))); destruct neg; sums; lia).
  all: try (pose proof (S _ (or_introl eq_refl)); pose proof (S _ (or_intror (or_introl eq_refl))); pose proof (S _ (or_intror (or_intror (or_introl eq_refl)))); destruct neg; sums; lia).
  - apply (t_lit l t) in L0. lia.
  - apply andb_prop in L0 as [_ L0]. destruct table as [|[|c s]|v]; try discriminate L0; cbn [tref_kids]; change (sizes []) with 0; sums; lia.
  - destruct table as [|[|c s]|v]; try discriminate L0; cbn [tref_kids]; change (sizes []) with 0; sums; lia.
  - (* NOT *) pose proof (S _ (or_introl eq_refl)). pose proof (IH' _ (or_introl eq_refl) true) as N. cbn [complete_here] in G0.
    destruct op; [| |destruct (negatable e) eqn:B|]; rewrite ?andb_false_r, ?andb_true_r; sums; operands; try lia; [|destruct neg; sums; lia].
    assert (I : inner true e = 1); [|lia]. destruct e; try discriminate B; try (destruct op; try discriminate B; try discriminate G0); reflexivity.
  - pose proof (S _ (or_introl eq_refl)). pose proof (S _ (or_intror (or_introl eq_refl))). destruct op, neg; cbn [andb binop_toks length]; lia.
  - pose proof (S _ (or_introl eq_refl)). assert (T : large (toks_n false) vs) by (intros k I; apply S; now right). apply large_sum in T. low. destruct neg; sums; lia.
  - pose proof (S _ (or_introl eq_refl)). pose proof (S _ (or_intror (or_introl eq_refl))). rewrite sizes_opt.
    destruct esc as [x|]; cbn [size_opt]; [|destruct neg; sums; lia]. pose proof (S _ (or_intror (or_intror (or_introl eq_refl)))). destruct neg; sums; lia.
  - (* CASE *) apply large_app in S as [Sb S]. apply large_app in S as [Se Sv]. rewrite !sizes_opt.
    assert (V : size_opt value <= length match value with Some x => toks_n false x | None => [] end)
      by (destruct value as [x|]; [exact (Sv _ (or_introl eq_refl))|apply le_n]).
    assert (E : size_opt else_ <= length match else_ with Some x => K "ELSE" :: toks_n false x | None => [] end)
      by (destruct else_ as [x|]; [pose proof (Se _ (or_introl eq_refl)); sums; cbn [size_opt]; lia|apply le_n]).
    assert (B : sizes (concat (map (fun cv : node * node => [fst cv; snd cv]) branches))
                <= length (concat (map (fun '(c, x) => K "WHEN" :: toks_n false c ++ K "THEN" :: toks_n false x) branches))); [|lia].
    clear - Sb. induction branches as [|[c x] bs IHb]; [apply le_n|]. cbn [map concat fst snd app] in *. rewrite !sizes_cons. sums.
    pose proof (Sb _ (or_introl eq_refl)). pose proof (Sb _ (or_intror (or_introl eq_refl))). specialize (IHb (fun k I => Sb k (or_intror (or_intror I)))). lia.
  - (* call *) pose proof (fn_len f). apply large_app in S as [Sa Sf]. apply large_sum in Sa. apply t_fopts in Sf. cbn [complete_here] in G0. destruct (fn_bare f).
    + destruct args; try discriminate G0. destruct fo as [[|] [] [] ig]; try discriminate G0. cbn [fopts_kids map opt_kids app]. change (sizes []) with 0. lia.
    + unfold call_toks. sums. low. lia.
  - pose proof (fn_len f). destruct (_ =? _)%Z; sums; lia.
  - pose proof (S _ (or_introl eq_refl)). assert (T : large (toks_n false) (map o_value orderby)) by (intros k I; apply S; now right).
    apply t_orders_sum in T. low. lia.
  - (* SELECT *) apply andb_prop in L0 as [L1 L2].
    assert (Q : forall k, In k (qattrs_kids qa) -> size k + inner false k <= length (toks_n false k)) by (intros k I; apply IH'; do 6 (apply in_or_app; right); exact I).
    apply large_app in S as [S1 S]. apply large_app in S as [S2 S]. apply large_app in S as [S3 S]. apply large_app in S as [S4 S].
    apply large_app in S as [S5 S]. apply large_app in S as [S6 S7]. apply large_sum in S1. apply (t_qattrs qa L2) in Q. rewrite !sizes_opt.
    assert (F : size_opt from_ <= length (opt_toks [K "FROM"] (fun r => rel_toks false r (toks_n false r)) from_))
      by (destruct from_ as [x|]; [|apply le_n]; unfold opt_toks; sums; operands; pose proof (S2 _ (or_introl eq_refl)); cbn [size_opt]; lia).
    assert (W : size_opt wh <= length (opt_toks [K "WHERE"] (toks_n false) wh))
      by (destruct wh as [x|]; [|apply le_n]; unfold opt_toks; sums; pose proof (S3 _ (or_introl eq_refl)); cbn [size_opt]; lia).
    assert (H : size_opt having <= length (opt_toks [K "HAVING"] (toks_n false) having))
      by (destruct having as [x|]; [|apply le_n]; unfold opt_toks; sums; pose proof (S5 _ (or_introl eq_refl)); cbn [size_opt]; lia).
    assert (B : sizes match gb with Some g => groupby_kids g | None => [] end <= length (opt_toks [K "GROUP"; K "BY"] (groupby_toks (toks_n false)) gb))
      by (destruct gb as [g|]; [|apply le_n]; unfold opt_toks; sums; apply t_groupby in S4; lia).
    match goal with |- context [length match windows with [] => [] | _ :: _ => ?t end] =>
      assert (N : sizes (concat (map (fun nw : string * window node => window_kids (snd nw)) windows))
                  <= length match windows with [] => [] | _ :: _ => t end) end.
    { assert (N : sizes (concat (map (fun nw : string * window node => window_kids (snd nw)) windows))
                  <= list_sum (map (@length token) (map (fun '(m, w) => word_token m :: K "AS" :: paren (window_toks (toks_n false) w)) windows))).
      { clear - S6. rewrite sizes_concat, !map_map. induction windows as [|[m w] ws IHw]; [apply le_n|]. cbn [map concat snd fst] in *.
        apply large_app in S6 as [Sw S6]. specialize (IHw S6). apply t_window in Sw. unfold list_sum in *. cbn [fold_right]. sums. lia. }
      destruct windows as [|w ws]; [apply Nat.le_0_l|]. sums. low. lia. }
    low. lia.
  - destruct qa as [[] [] qo ql]; try discriminate G0. cbn [qattrs_kids map app].
    pose proof (S _ (or_introl eq_refl)). pose proof (S _ (or_intror (or_introl eq_refl))). change (sizes []) with 0. destruct op, distinct; cbn [set_op_toks length]; lia.
  - pose proof (S _ (or_introl eq_refl)).
    assert (Q : forall k, In k (qattrs_kids qa) -> size k + inner false k <= length (toks_n false k)) by (intros k I; apply IH'; now right).
    apply (t_qattrs qa L0) in Q. lia.
  - assert (Q : forall k, In k (qattrs_kids qa) -> size k + inner false k <= length (toks_n false k)) by (intros k I; apply IH'; apply in_or_app; now right).
    apply large_app in S as [Se Sq]. apply large_sum in Se. apply (t_qattrs qa L0) in Q. low. lia.
  - destruct catalog, schema; cbn; lia.
  - pose proof (S _ (or_introl eq_refl)). destruct cols as [|c cols]; sums; lia.
  - pose proof (S _ (or_introl eq_refl)). pose proof (S _ (or_intror (or_introl eq_refl))).
    destruct crit as [[l|x]|]; cbn [crit_toks jcrit_kids] in *; rewrite ?sizes_cons; change (sizes []) with 0; sums; try lia.
    pose proof (S _ (or_intror (or_intror (or_introl eq_refl)))). lia.
Qed.

(** * The property *)
Theorem C77_printed : forall e o, lexable e -> complete e -> size e <= length (lex (sql e o)).
Proof. intros e o L C. rewrite (lex_sql e o L). pose proof (whole_toks e L C false). unfold toks. lia. Qed.
Print Assumptions C77_printed.
Theorem C77_characters : forall e o, lexable e -> complete e -> size e <= String.length (sql e o).
Proof. intros e o L C. pose proof (C77_printed e o L C). pose proof (lex_length (sql e o)). lia. Qed.
Print Assumptions C77_characters.
(** What the format command writes, and what it was given, have a token for every object. *)
Theorem C77_format : forall en t q t', query_from_sql en t = Ok q -> lexable q -> complete q -> format en CQuery t = Ok t' ->
  size q <= length (lex t') /\ size q <= length (lex t).
Proof.
  intros en t q t' H L C F. unfold format, get_sql_object, get_query in F. rewrite H in F. cbn [bind] in F.
  destruct (resolve empty_schema q) as [[out q']|x] eqn:R; [|discriminate F]. cbn [bind object_text] in F.
  rewrite (C53_text _ _ _ _ pretty R) in F. apply to_sql_text in F as ->.
  split; [now apply C77_printed|now apply (C76_query en)].
Qed.
Print Assumptions C77_format.

(** * Cases *)
(** Deciding it on an object of known depth. *)
Fixpoint complete_n (n : nat) (e : node) : bool :=
  match n with O => false | Datatypes.S n => (complete_here e && forallb (complete_n n) (kids e))%bool end.
Lemma complete_dec n : forall e, complete_n n e = true -> complete e.
Proof.
  induction n as [|n IH]; intros e H; [discriminate H|]. cbn [complete_n] in H. apply andb_prop in H as [A B].
  constructor; [exact A|]. rewrite forallb_forall in B. auto.
Qed.
Local Definition case_text := "WITH r(a, c) AS (SELECT x.a, TRUE FROM s.x) SELECT a, b NOT IN (1, NULL), sum(c) FILTER (WHERE NOT d) FROM r CROSS JOIN q ORDER BY a + 1.5".
Example C77_case :
  match query_from_sql full_env case_text with
  | Ok q => lexable_n 12 q = true /\ complete_n 12 q = true /\ size q = 22
            /\ length (lex (sql q pretty)) = 50 /\ match format full_env CQuery case_text with Ok t => length (lex t) = 50 | Err _ => False end
  | Err _ => False
  end.
Proof. vm_compute. repeat split. Qed.

(** Each of the exceptions is one: these objects have more parts than their text has
    tokens. *)
Local Definition x := NField "x" TRNone unknown.
Local Definition one (q : qattrs node) := NValues [NLit (LInt 1) integer] q.
Local Definition sum (n : nat) := Nat.iter n (fun e => NBin BAdd e x) x.
Local Definition losing : list node :=
  [ NUn UNot (NBin BEq x x); NUn UNot (NBin BNe x x);
    NSetQuery OpUnion (one (mkQ [] [] None None)) (one (mkQ [] [] None None)) true (mkQ [] [mkOrder (sum 3) false false] None None);
    NSetQuery OpUnion (one (mkQ [] [] None None)) (one (mkQ [] [] None None)) true (mkQ [NAliasedRel (NValues [sum 3] (mkQ [] [] None None)) "w" []] [] None None);
    NFunc FCurrentDate [x] (mkFopts [] None None false) ].
Theorem C77_all_refuted : forall e, In e losing -> lexable e /\ forall o, length (lex (sql e o)) < size e.
Proof.
  assert (D : forallb (fun e => lexable_n 9 e && Nat.ltb (length (toks e)) (size e))%bool losing = true) by (vm_compute; reflexivity).
  intros e I. rewrite forallb_forall in D. specialize (D _ I). apply andb_prop in D as [A B].
  apply lexable_dec in A. split; [exact A|]. intro o. rewrite (lex_sql e o A). now apply Nat.ltb_lt.
Qed.
Print Assumptions C77_all_refuted.
