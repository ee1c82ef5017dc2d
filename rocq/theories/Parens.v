(** How many opening parentheses a text needs to be read as an expression, by the
    rules of SqlBase.g4 448-511 alone, and how many the printed text has
    (expression.py 432-466 [pemdas_str]). *)
From Coq Require Import String List ZArith NArith Bool Arith Lia Permutation.
From Verif Require Import PyStr Types Inference Lexer LexFacts TypeParser TypeRoundTrip Functions Ast Sql NodeFacts
  Tokens Grammar Accepts Parser ParsePrim ParseRel Good.
Import ListNotations.
Open Scope nat_scope.
Open Scope string_scope.
Open Scope list_scope.

(** The opening parentheses of a text. *)
Definition opens (ts : list token) : nat :=
  list_sum (map (fun t => match t with TSym "(" => 1 | _ => 0 end) ts).

(** * What the grammar demands *)

(** The tightest rule an expression can be written with, without parentheses around
    it (SqlBase.g4 448-477): 1 OR, 2 AND, 3 NOT, 4 a predicate, 6 sums, 7 products,
    8 signs, 10 primaryExpression. *)
Definition level (e : node) : nat :=
  match e with
  | NBin BOr _ _ => 1
  | NBin BAnd _ _ => 2
  | NUn UNot (NBetween _ _ _ | NInList _ _ | NInQuery _ _ | NLike _ _ _ | NUn UIsNull _ | NBin BDistinct _ _) => 4
  | NUn UNot _ => 3
  | NUn UIsNull _ | NBetween _ _ _ | NInQuery _ _ | NInList _ _ | NLike _ _ _ => 4
  | NBin (BAdd | BMinus) _ _ => 6
  | NBin (BMul | BDiv | BMod) _ _ => 7
  | NBin _ _ _ => 4
  | NUn _ _ => 8
  | _ => 10
  end.
(** The rules of the two operands (SqlBase.g4 450-476). *)
Definition sides (op : binop) : nat * nat :=
  match op with
  | BOr => (1, 2) | BAnd => (2, 3)
  | BAdd | BMinus => (6, 7) | BMul | BDiv | BMod => (7, 8)
  | _ => (5, 5)
  end.
(** The parentheses demanded inside an expression: those that belong to a form of the
    language (lists, rows, casts, calls) and those around an operand whose rule is
    looser than the place it stands in.  Nothing is demanded here for what can be
    written in several ways (concatenations, lambdas, queries, calls without arguments). *)
Fixpoint demand (e : node) {struct e} : nat :=
  let at_ := fun c x => (if Nat.ltb (level x) c then 1 else 0) + demand x in
  let all := fun l => list_sum (map demand l) in
  let opt := fun o => match o with Some x => demand x | None => 0 end in
  match e with
  | NField _ (TRVal b) _ => at_ 10 b
  | NUn UNot v => at_ 3 v
  | NUn UIsNull v => at_ 5 v
  | NUn _ v => at_ 8 v
  | NBin op l r => at_ (fst (sides op)) l + at_ (snd (sides op)) r
  | NBetween a b c => at_ 5 a + at_ 5 b + at_ 5 c
  | NInList v l => 1 + at_ 5 v + all l
  | NInQuery v _ => 1 + at_ 5 v
  | NLike v p o => at_ 5 v + at_ 5 p + match o with Some x => at_ 5 x | None => 0 end
  | NRow l => 1 + all l
  | NArray l => all l
  | NSubscript v i => at_ 10 v + at_ 5 i
  | NCase bs el v => opt v + list_sum (map (fun cv => let '(a, b) := cv in demand a + demand b) bs) + opt el
  | NCast _ v _ => 1 + demand v
  | NFunc FConcatenate _ _ | NFunc _ [] _ => 0
  | NFunc _ l _ => 1 + all l
  | _ => 0
  end.
Definition demand_at (c : nat) (e : node) : nat := (if Nat.ltb (level e) c then 1 else 0) + demand e.

(** * Every text read as the expression has them *)
Lemma opens_nil : opens [] = 0. Proof. reflexivity. Qed.
Lemma opens_cons t ts : opens (t :: ts) = opens [t] + opens ts.
Proof. change (t :: ts) with ([t] ++ ts). unfold opens. now rewrite map_app, list_sum_app. Qed.
Lemma opens_app a b : opens (a ++ b) = opens a + opens b.
Proof. unfold opens. now rewrite map_app, list_sum_app. Qed.
Lemma opens_paren ts : opens (paren ts) = S (opens ts).
Proof. unfold paren. rewrite opens_cons, opens_app. change (opens [TSym "("]) with 1. change (opens [TSym ")"]) with 0. lia. Qed.

Lemma level_range e : 1 <= level e <= 10.
Proof.
  destruct e; cbn [level]; try lia; [destruct op; try lia|destruct op; lia].
  destruct e; try lia; [destruct op; lia|destruct op; lia].
Qed.
Lemma demand_at_le c c' e : c' <= c -> demand_at c' e <= demand_at c e.
Proof.
  intro L. unfold demand_at. destruct (Nat.ltb_spec (level e) c'), (Nat.ltb_spec (level e) c); lia.
Qed.
Lemma demand_at_level c e : c <= level e -> demand_at c e = demand e.
Proof. intro L. unfold demand_at. destruct (Nat.ltb_spec (level e) c); lia. Qed.
Lemma demand_at_one e : demand_at 1 e = demand e.
Proof. apply demand_at_level, level_range. Qed.
Lemma demand_at_any c e : demand_at c e <= S (demand e).
Proof. unfold demand_at. destruct (Nat.ltb (level e) c); lia. Qed.

(** What is counted for each kind of phrase. *)
Fixpoint low (f : form) : nat :=
  match f with
  | FMany l => list_sum (map low l)
  | FExpr c e => demand_at c e
  | FClause _ c (Some e) => demand_at c e
  | FElse (Some e) | FOperand (Some e) => demand e
  | FWhens l => list_sum (map (fun cv => let '(a, b) := cv in demand a + demand b) l)
  | FArgs l => list_sum (map demand l)
  | FTerm _ q | FBody q | FQuery q => demand q
  | _ => 0
  end.
Lemma low_exprs l : low (FExprs l) = list_sum (map demand l).
Proof.
  unfold FExprs. cbn [low]. rewrite map_map. f_equal. apply map_ext. intro e. apply demand_at_one.
Qed.
Lemma demand_arranged f l : list_sum (map demand (arranged f l)) = list_sum (map demand l).
Proof.
  destruct f; try reflexivity. destruct l as [|a [|b [|c [|d l]]]]; try reflexivity.
  cbn [arranged map list_sum fold_right]. lia.
Qed.
Lemma demand_call f l fo : demand (NFunc f l fo) <= S (list_sum (map demand l)).
Proof. destruct l; destruct f; cbn [demand]; lia. Qed.
Lemma demand_now f p : demand_at 10 (now f p) = 0.
Proof. destruct f; reflexivity. Qed.
Lemma demand_primary e : level e = 10 -> demand_at 10 e = demand e.
Proof. intro E. apply demand_at_level. lia. Qed.
Lemma low_kept k c e : low (FClause k c (kept e)) <= demand_at c e.
Proof. destruct e; cbn [kept low]; lia. Qed.
Lemma low_operand e : low (FOperand (kept e)) <= demand e.
Proof. destruct e; cbn [kept low]; lia. Qed.

(** The demand of each form, in terms of its parts. *)
Lemma demand_negated neg v :
  match v with NBetween _ _ _ | NInList _ _ | NInQuery _ _ | NLike _ _ _ | NUn UIsNull _ | NBin BDistinct _ _ => True | _ => False end ->
  demand_at 4 (negated neg v) = demand v.
Proof.
  intro H. assert (L : level v = 4) by (destruct v; try destruct op; try contradiction; reflexivity).
  destruct neg; cbn [negated]; [|apply demand_at_level; lia].
  rewrite demand_at_level by (destruct v; try destruct op; try contradiction; cbn [level]; lia).
  change (demand_at 3 v = demand v). apply demand_at_level. lia.
Qed.
Lemma demand_interval e ts c : interval e ts -> c <= 10 -> demand_at c e = 0.
Proof. intros [m tm v tv u f g tg S T U G _] L. now rewrite demand_at_level. Qed.
Lemma demand_dressed a q : demand (dressed a q) = demand q.
Proof. destruct q; reflexivity. Qed.

Ltac tokens := repeat first [rewrite opens_app | rewrite opens_paren | rewrite opens_nil |
  match goal with |- context [opens (?t :: ?r)] => lazymatch r with nil => fail | _ => rewrite (opens_cons t r) end end].

Lemma means_opens en f ts : means en f ts -> low f <= opens ts.
Proof.
  induction 1.
  all: try solve [cbn [low]; lia].
  all: try solve [cbn [low map list_sum fold_right] in *; tokens; lia].
  all: repeat rewrite low_exprs in *.
  all: try solve [repeat (match goal with H : In _ _ |- _ => destruct H as [H|H]; [injection H as <- <-|] end); try contradiction;
    cbn [low] in *; rewrite ?demand_negated by exact Logic.I; unfold demand_at in *; cbn [low level demand sides fst snd Nat.ltb Nat.leb negated map list_sum fold_right] in *; tokens; lia].
  - cbn [low map] in *. change (list_sum (low p :: map low l)) with (low p + list_sum (map low l)). tokens. lia.
  - cbn [low] in *. pose proof (demand_at_le _ _ e H). lia.
  - cbn [low] in *. pose proof (demand_at_any 10 e). rewrite demand_at_one in *. tokens. lia.
  - cbn [low] in *. pose proof (demand_at_any 10 q). tokens. lia.
  - cbn [low] in *. tokens. rewrite demand_at_level; [change (demand (NUn UNot e)) with (demand_at 3 e); lia|].
    destruct e; cbn [level]; try lia; destruct op; lia.
  - cbn [low]. rewrite (demand_interval _ _ 9 H0) by lia. lia.
  - cbn [low]. rewrite (demand_interval _ _ 10 H) by lia. lia.
  - pose proof (low_operand e). cbn [low] in IHmeans. rewrite demand_at_one in IHmeans. lia.
  - cbn [low map] in *. rewrite ?demand_at_one in *.
    match goal with |- list_sum (?a :: ?b) <= _ => change (list_sum (a :: b)) with (a + list_sum b) end. tokens. lia.
  - cbn [low]. rewrite demand_now. lia.
  - cbn [low]. rewrite demand_now. lia.
  - cbn [low] in *. rewrite demand_at_level by (cbn [level]; lia).
    match goal with |- demand (NFunc _ _ ?fo) <= _ => pose proof (demand_call f (arranged f l) fo) end. rewrite demand_arranged in *.
    tokens. change (opens [TSym "("]) with 1. lia.
  - cbn [low] in *. rewrite demand_at_level by (cbn [level]; lia).
    match goal with |- demand (NFunc _ _ ?fo) <= _ => pose proof (demand_call f [NStar r unknown] fo) end.
    cbn [map list_sum fold_right demand] in *. tokens. change (opens [TSym "("]) with 1. lia.
  - pose proof (low_kept k c e). cbn [low] in *. tokens. lia.
  - cbn [low] in *. rewrite demand_dressed. tokens. lia.
  - cbn [low] in *. rewrite demand_dressed. tokens. lia.
Qed.

(** * The printed text has no others *)

(** The forms with one way of writing them. *)
Definition counted_here (e : node) : bool :=
  match e with
  | NLit _ _ | NField _ _ _ | NUn _ _ | NBin _ _ _ | NBetween _ _ _ | NInList _ _ | NLike _ _ _ | NArray _ | NRow _
  | NTypeCtor _ _ | NCase _ _ _ | NSubscript _ _ | NStar TRNone _ => true
  | NCast _ _ t => Nat.eqb (opens (type_toks false t)) 0
  | NFunc FConcatenate _ _ => false
  | NFunc f l fo => (nonempty l && fopts_empty fo && negb (fn_bare f))%bool
  | _ => false
  end.
Inductive counted : node -> Prop :=
| counted_node e : counted_here e = true -> (forall x, In x (kids e) -> counted x) -> counted e.
Fixpoint counted_n (n : nat) (e : node) : bool :=
  match n with O => false | S n => (counted_here e && forallb (counted_n n) (kids e))%bool end.
Lemma counted_dec n e : counted_n n e = true -> counted e.
Proof.
  revert e; induction n as [|n IH]; intros e H; [discriminate|]. cbn [counted_n] in H.
  apply andb_true_iff in H as [H1 H2]. constructor; [exact H1|].
  rewrite forallb_forall in H2. intros x Hx. now apply IH, H2.
Qed.

Lemma level_cat en vs x : good_here en vs x = true -> counted_here x = true -> cat x <= level x.
Proof.
  intros G C. unfold good_here in G. apply andb_true_iff in G as [_ G].
  destruct x; try discriminate C; cbn [cat level]; try lia.
  destruct op; try lia. destruct x; cbn [negatable] in *; try lia; [destruct op; lia|].
  destruct op; cbn [negatable] in *; try lia; discriminate G.
Qed.

(** Where the printer writes parentheses, the grammar wants them. *)
Definition places : list (option nat * bool * nat) :=
  [(Some 8, true, 8); (Some 2, true, 3); (Some 3, true, 5); (Some 4, true, 5); (Some 4, false, 5); (Some 6, true, 6);
   (Some 6, false, 7); (Some 7, true, 7); (Some 7, false, 8); (Some 1, true, 2); (Some 1, false, 3); (Some 0, true, 1);
   (Some 0, false, 2); (None, true, 5); (None, false, 5)].
Ltac low_level := left; eexists; split; [reflexivity|split; [reflexivity|cbn [unop_prec binop_prec]; lia]].
Lemma parens_wanted cur left c x :
  In (cur, left, c) places -> counted_here x = true -> needs_parens cur left x = true -> level x < c.
Proof.
  intros I C N.
  assert (X : (exists p, prec x = Some p /\ level x = match p with 0 => 1 | 1 => 2 | 2 => 3 | 3 => 4 | 4 => 4 | n => n end
               /\ p <= 8) \/ (prec x = Some 2 /\ level x = 4)).
  { destruct x; try discriminate C; try (destruct cur; discriminate N); cbn [prec level].
    - destruct op; try low_level. cbn [unop_prec].
      destruct x; try low_level; try (right; now split); destruct op; try low_level; right; now split.
    - destruct op; try low_level. destruct cur; discriminate N.
    - low_level.
    - low_level.
    - low_level.
    - destruct f; discriminate C || (destruct cur; discriminate N). }
  unfold needs_parens in N.
  assert (F : prec x <> None) by (intro E; rewrite E in N; destruct cur; discriminate N).
  destruct X as [(p & E & L & B)|[E L]]; rewrite E in N, F; rewrite L; clear E L F C.
  - unfold places in I. cbn [In] in I.
    repeat (destruct I as [I|I]; [injection I as <- <- <-; do 9 (destruct p as [|p]; [try discriminate N; lia|]); lia|]).
    destruct I.
  - unfold places in I. cbn [In] in I.
    repeat (destruct I as [I|I]; [injection I as <- <- <-; try discriminate N; lia|]). destruct I.
Qed.
Lemma operand_opens en vs cur left c x :
  In (cur, left, c) places -> good_here en vs x = true -> counted_here x = true -> fits c cur left x = true ->
  opens (toks x) = demand x ->
  opens (if needs_parens cur left x then paren (toks_n false x) else toks_n false x) = demand_at c x.
Proof.
  intros I G C F E. change (toks_n false x) with (toks x). unfold fits in F. apply andb_true_iff in F as [_ F].
  destruct (needs_parens cur left x) eqn:N.
  - apply (parens_wanted cur left c x I C) in N. rewrite opens_paren, E. unfold demand_at.
    apply Nat.ltb_lt in N. rewrite N. lia.
  - cbn [orb] in F. apply Nat.leb_le in F. pose proof (level_cat en vs x G C).
    rewrite demand_at_level by lia. exact E.
Qed.
Lemma opens_commas l : opens (commas l) = list_sum (map opens l).
Proof.
  unfold commas. induction l as [|a l IH]; [reflexivity|]. destruct l as [|b l].
  - cbn [tjoin map list_sum fold_right]. lia.
  - change (tjoin [TSym ","] (a :: b :: l)) with (a ++ [TSym ","] ++ tjoin [TSym ","] (b :: l)).
    rewrite !opens_app, IH. change (list_sum (map opens (a :: b :: l))) with (opens a + list_sum (map opens (b :: l))).
    change (opens [TSym ","]) with 0. lia.
Qed.
Lemma opens_list l : (forall x, In x l -> opens (toks x) = demand x) ->
  opens (commas (map (toks_n false) l)) = list_sum (map demand l).
Proof.
  intro H. rewrite opens_commas, map_map. f_equal. apply map_ext_in. exact H.
Qed.

Lemma opens_fn f : opens (lex (fn_name f)) = 0.
Proof. destruct f; vm_compute; reflexivity. Qed.
Lemma opens_word n : opens [word_token n] = 0.
Proof. unfold word_token. repeat match goal with |- context [if ?b then _ else _] => destruct b end; reflexivity. Qed.
Lemma opens_lit l : opens (lit_toks l) = 0.
Proof.
  destruct l as [|b|z|d|s|s]; try reflexivity.
  - cbn [lit_toks]. unfold int_toks, Ztok. destruct (z <? 0)%Z; reflexivity.
  - cbn [lit_toks]. unfold dec_toks. destruct (dneg d); reflexivity.
Qed.
Lemma opens_op neg op : opens (binop_toks neg op) = 0.
Proof. destruct op, neg; reflexivity. Qed.

Ltac words := repeat match goal with |- context [opens [?t]] => change (opens [t]) with 0 end.
Lemma printed_opens en : forall e vs, good en vs e -> counted e -> forall neg, opens (toks_n neg e) = demand e.
Proof.
  induction e as [e IH] using kids_ind. intros vs G C neg.
  inversion G as [vs' e' Gh Gk]; subst vs' e'. inversion C as [e' Ch Ck]; subst e'.
  assert (T : forall x, In x (kids e) -> opens (toks x) = demand x).
  { intros x I. exact (IH x I (scope vs e) (Gk x I) (Ck x I) false). }
  assert (O : forall cur left c x, In x (kids e) -> In (cur, left, c) places -> fits c cur left x = true ->
    opens (if needs_parens cur left x then paren (toks_n false x) else toks_n false x) = demand_at c x).
  { intros cur left c x I P F. pose proof (Gk x I) as Gx. pose proof (Ck x I) as Cx.
    inversion Gx as [? ? Hg _]; subst. inversion Cx as [? Hc _]; subst. exact (operand_opens en _ cur left c x P Hg Hc F (T x I)). }
  assert (Neg : forall x, In x (kids e) -> opens (toks_n true x) = demand x).
  { intros x I. exact (IH x I (scope vs e) (Gk x I) (Ck x I) true). }
  assert (Lv : forall x, In x (kids e) -> cat x <= level x).
  { intros x I. pose proof (Gk x I) as Gx. pose proof (Ck x I) as Cx.
    inversion Gx as [? ? Hg _]; subst. inversion Cx as [? Hc _]; subst. exact (level_cat en _ x Hg Hc). }
  clear IH Gk Ck C G. unfold good_here in Gh. apply andb_true_iff in Gh as [_ Gh].
  destruct e; try discriminate Ch; cbn [kids] in *.
  - (* NLit *) apply opens_lit.
  - (* NField *) apply andb_true_iff in Gh as [_ Gh]. destruct table as [|s|v]; [reflexivity| |discriminate Gh]. destruct s; reflexivity.
  - (* NStar *) destruct table; try discriminate Ch. reflexivity.
  - (* NUn *) destruct op; cbn [toks_n demand].
    + rewrite opens_cons, (O (Some 8) true 8) by (cbn; tauto). reflexivity.
    + apply andb_true_iff in Gh as [Gh _]. rewrite opens_cons, (O (Some 8) true 8) by (cbn; tauto). reflexivity.
    + destruct (negatable e) eqn:Ne.
      * rewrite (Neg e) by (now left). change (demand e = demand_at 3 e). symmetry. apply demand_at_level.
        destruct e; try discriminate Ne; try (cbn [level]; lia); destruct op; try discriminate Ne; cbn [level]; lia.
      * rewrite opens_cons, (O (Some 2) true 3) by (cbn; tauto). reflexivity.
    + rewrite opens_app, (O (Some 3) true 5) by (cbn; tauto). destruct neg; cbn; unfold demand_at; lia.
  - (* NBin *) cbn [toks_n]. apply andb_true_iff in Gh as [Gl Gr].
    rewrite !opens_app, opens_op, (O (binop_prec op) true (fst (needs op))), (O (binop_prec op) false (snd (needs op)));
      [|cbn; tauto|destruct op; cbn; tauto|exact Gr|cbn; tauto|destruct op; cbn; tauto|exact Gl].
    destruct op; reflexivity.
  - (* NBetween *) apply andb_true_iff in Gh as [Gh G3]. apply andb_true_iff in Gh as [G1 G2]. cbn [toks_n].
    tokens. rewrite !(O (Some 3) true 5) by (cbn; tauto).
    replace (opens (if neg then [Tokens.K "NOT"] else [])) with 0 by (now destruct neg). unfold demand_at. cbn [demand]. words. lia.
  - (* NArray *) cbn [toks_n demand]. tokens. rewrite opens_list by exact T. words. lia.
  - (* NInList *) apply andb_true_iff in Gh as [Gh G3]. apply andb_true_iff in Gh as [G1 G2]. cbn [toks_n].
    tokens. rewrite (O (Some 3) true 5) by (cbn; tauto). rewrite opens_list by (intros x I; apply T; now right).
    replace (opens (if neg then [Tokens.K "NOT"] else [])) with 0 by (now destruct neg). unfold demand_at. cbn [demand]. words. lia.
  - (* NLike *) apply andb_true_iff in Gh as [Gh G3]. apply andb_true_iff in Gh as [G1 G2]. cbn [toks_n].
    tokens. rewrite !(O (Some 3) true 5) by (cbn; tauto).
    replace (opens (if neg then [Tokens.K "NOT"] else [])) with 0 by (now destruct neg).
    destruct esc as [x|].
    + cbn [opt_all] in G3. apply andb_true_iff in G3 as [_ G3]. apply Nat.leb_le in G3.
      assert (I : In x (e1 :: e2 :: opt_kids (Some x))) by (cbn; tauto).
      tokens. rewrite (T x I : opens (toks_n false x) = _). pose proof (Lv x I).
      rewrite <- (demand_at_level 5 x) by lia. unfold demand_at. cbn [demand]. words. lia.
    + rewrite opens_nil. unfold demand_at. cbn [demand]. words. lia.
  - (* NTypeCtor *) cbn [toks_n demand]. tokens. now rewrite opens_word.
  - (* NRow *) cbn [toks_n demand]. tokens. rewrite opens_list by exact T. reflexivity.
  - (* NCast *) cbn [counted_here] in Ch. apply Nat.eqb_eq in Ch. cbn [toks_n demand]. tokens. rewrite Ch, (T e (or_introl eq_refl) : opens (toks_n false e) = _).
    words. lia.
  - (* NSubscript *) apply andb_true_iff in Gh as [Gh G4]. apply andb_true_iff in Gh as [Gh G3]. apply andb_true_iff in Gh as [G1 G2].
    apply Nat.eqb_eq in G2. apply Nat.leb_le in G4. cbn [toks_n]. tokens.
    rewrite (T e1 : _ -> opens (toks_n false e1) = _), (T e2 : _ -> opens (toks_n false e2) = _) by (cbn; tauto).
    pose proof (Lv e2 ltac:(cbn; tauto)).
    assert (L : level e1 = 10).
    { destruct e1; cbn [cat] in G2; try discriminate G2; try reflexivity.
      - destruct op; try discriminate G2. destruct (negatable e1); discriminate G2.
      - destruct op; discriminate G2. }
    rewrite <- (demand_at_level 10 e1), <- (demand_at_level 5 e2) by lia. unfold demand_at. cbn [demand]. words. lia.
  - (* NCase *) cbn [toks_n demand]. tokens.
    assert (B : opens (concat (map (fun cv => let '(c, x) := cv in Tokens.K "WHEN" :: toks_n false c ++ Tokens.K "THEN" :: toks_n false x) branches))
                = list_sum (map (fun cv => let '(a, b) := cv in demand a + demand b) branches)).
    { assert (TB : forall c x, In (c, x) branches -> opens (toks_n false c) = demand c /\ opens (toks_n false x) = demand x).
      { intros c x I. assert (J : forall y, In y [c; x] -> In y (concat (map (fun cv => [fst cv; snd cv]) branches))).
        { intros y Iy. apply in_concat. exists [c; x]. split; [|exact Iy]. apply in_map_iff. now exists (c, x). }
        split; apply T; apply in_or_app; left; apply J; cbn; tauto. }
      clear - TB. induction branches as [|[c x] bs IHb]; [reflexivity|].
      cbn [map concat]. tokens. rewrite IHb by (intros c' x' I; apply TB; now right).
      destruct (TB c x (or_introl eq_refl)) as [-> ->].
      match goal with |- _ = list_sum (?a :: ?b) => change (list_sum (a :: b)) with (a + list_sum b) end. words. lia. }
    rewrite B.
    assert (V : opens (match value with None => [] | Some x => toks_n false x end) = match value with Some x => demand x | None => 0 end).
    { destruct value as [x|]; [|reflexivity]. apply T. apply in_or_app. right. apply in_or_app. right. now left. }
    rewrite V.
    assert (E : opens (match else_ with None => [] | Some x => Tokens.K "ELSE" :: toks_n false x end) = match else_ with Some x => demand x | None => 0 end).
    { destruct else_ as [x|]; [|reflexivity]. rewrite opens_cons, (T x : _ -> opens (toks_n false x) = _); [reflexivity|].
      apply in_or_app. right. apply in_or_app. left. now left. }
    rewrite E. words. lia.
  - (* NFunc *)
    assert (D : demand (NFunc f args fo) = S (list_sum (map demand args)) /\ fopts_empty fo = true /\ fn_bare f = false).
    { destruct args as [|a l]; [destruct f; discriminate Ch|].
      assert (Z : (fopts_empty fo && negb (fn_bare f))%bool = true) by (destruct f; try discriminate Ch; exact Ch).
      apply andb_true_iff in Z as [Z1 Z2]. apply negb_true_iff in Z2.
      split; [destruct f; try discriminate Ch; reflexivity|auto]. }
    destruct D as (D & Fe & B). rewrite D. cbn [toks_n]. rewrite B. unfold call_toks. tokens. rewrite opens_fn.
    rewrite opens_list by (intros x I; apply T; apply in_or_app; now left).
    destruct fo as [ob fi wi ig]. destruct ob, fi, wi, ig; try discriminate Fe. cbn. lia.
Qed.
