(** Property theorems C51: reading set operations written without parentheses. *)
From Coq Require Import String Ascii List Bool ZArith NArith Arith Lia.
From Verif Require Import PyStr StrFacts Printer PrinterFacts Types Inference Lexer LexFacts TypeParser Functions Ast Sql
  Tokens ReadsFacts SqlReads Parser TypeRoundTrip ParseBase ParseParts ParseExpr ParseForms ParseRel ParseQuery Good Unvar ParseMain ParseWhole
  GoodFacts TextFacts PropertiesLiterals ClauseFacts PropertiesSets.
Import ListNotations.
Open Scope nat_scope.
Open Scope string_scope.

(** * The text

    Queries joined by operators, each with DISTINCT, ALL or nothing, and then
    ORDER BY, OFFSET and LIMIT for the whole. *)
Inductive xtree :=
| XQuery (q : node)
| XOp (op : set_op) (quant : option bool) (l r : xtree).
Definition quantifier_word (quant : option bool) : string :=
  match quant with None => "" | Some true => "DISTINCT " | Some false => "ALL " end.
Fixpoint xtext (o : opts) (t : xtree) : string :=
  match t with
  | XQuery q => sql q o
  | XOp op quant l r => xtext o l ++ " " ++ operator_word op ++ " " ++ quantifier_word quant ++ xtext o r
  end.
Definition sort_text (o : opts) (x : order node) : string :=
  sql (o_value x) o ++ (if o_desc x then " DESC" else "") ++ (if o_nulls_first x then " NULLS FIRST" else "").
Definition count_words (k : string) (c : option Z) : string :=
  match c with None => "" | Some z => " " ++ k ++ " " ++ str_of_Z z end.
Definition ending (o : opts) (ob : list (order node)) (off lim : option Z) : string :=
  match ob with [] => "" | _ => " ORDER BY " ++ String.concat ", " (map (sort_text o) ob) end
  ++ count_words "OFFSET" off ++ count_words "LIMIT" lim.

(** INTERSECT binds more tightly than UNION and EXCEPT, and all of them to the left. *)
Definition tightness (op : set_op) : nat := match op with OpIntersect => 2 | _ => 1 end.
Definition tree_tightness (t : xtree) : nat := match t with XQuery _ => 3 | XOp op _ _ _ => tightness op end.
Fixpoint natural (t : xtree) : Prop :=
  match t with
  | XQuery _ => True
  | XOp op _ l r => natural l /\ natural r
      /\ tightness op <= tree_tightness l /\ tightness op < tree_tightness r
  end.

(** The object: DISTINCT unless ALL is written. *)
Fixpoint xnode (t : xtree) : node :=
  match t with
  | XQuery q => q
  | XOp op quant l r =>
      NSetQuery op (xnode l) (xnode r) (match quant with Some false => false | _ => true end) no_qattrs
  end.
(** Objects are made from the leaves up; making one may raise. *)
Fixpoint xbuild (t : xtree) : result node :=
  match t with
  | XQuery q => Ok q
  | XOp op quant l r =>
      let* a := xbuild l in
      let* b := xbuild r in
      mk (NSetQuery op a b (match quant with Some false => false | _ => true end) no_qattrs)
  end.
Fixpoint xfine (en : env) (t : xtree) : Prop :=
  match t with
  | XQuery q => fine en q /\ is_q q = true /\ bare q
  | XOp _ _ l r => xfine en l /\ xfine en r
  end.

(** * Its tokens *)
Definition quantifier_toks (quant : option bool) : list token :=
  match quant with None => [] | Some true => [K "DISTINCT"] | Some false => [K "ALL"] end.
Fixpoint xtoks (t : xtree) : list token :=
  match t with
  | XQuery q => toks q
  | XOp op quant l r => xtoks l ++ K (operator_word op) :: quantifier_toks quant ++ xtoks r
  end.
Lemma reads_operator op quant s ts :
  reads s ts -> reads (" " ++ operator_word op ++ " " ++ quantifier_word quant ++ s)
                      (K (operator_word op) :: quantifier_toks quant ++ ts).
Proof.
  intro H.
  assert (E : " " ++ operator_word op ++ " " ++ quantifier_word quant ++ s
              = (" " ++ operator_word op ++ " " ++ quantifier_word quant) ++ s) by (now rewrite !sapp_assoc).
  rewrite E. change (K (operator_word op) :: quantifier_toks quant ++ ts)%list
    with ((K (operator_word op) :: quantifier_toks quant) ++ ts)%list.
  eapply closed_app; [|exact H].
  destruct op, quant as [[]|]; apply closed_val; vm_compute; reflexivity.
Qed.
Lemma xtext_reads en o t : xfine en t -> reads (xtext o t) (xtoks t).
Proof.
  induction t as [q|op quant l IHl r IHr]; cbn [xfine xtext xtoks].
  - intros ((L & _) & _). now apply reads_sql.
  - intros [Fl Fr]. apply reads_app; [now apply IHl | reflexivity | now apply reads_operator, IHr].
Qed.
Definition ending_toks (ob : list (order node)) (off lim : option Z) : list token :=
  (orders_text (map (order_fmap toks) ob) ++ count_text "OFFSET" off ++ count_text "LIMIT" lim)%list.
Definition ending_fine (en : env) (ob : list (order node)) (off lim : option Z) : Prop :=
  (forall x, In x ob -> fine_expr en (o_value x))
  /\ match off with None => True | Some z => (0 <= z)%Z end
  /\ match lim with None => True | Some z => (0 <= z)%Z end.
Definition starts_blank (s : string) : Prop := s = "" \/ exists r, s = " " ++ r.
Lemma blank_stop s : starts_blank s -> stop s = true.
Proof. intros [->|[r ->]]; reflexivity. Qed.
Lemma blank_reads a b ta tb : reads a ta -> starts_blank b -> reads b tb -> reads (a ++ b) (ta ++ tb)%list.
Proof. intros A B R. apply reads_app; [exact A | now apply blank_stop | exact R]. Qed.
Lemma count_blank k c : starts_blank (count_words k c).
Proof. destruct c; [right; eexists; reflexivity | now left]. Qed.
Lemma count_reads k c : In k ["OFFSET"; "LIMIT"] ->
  match c with None => True | Some z => (0 <= z)%Z end -> reads (count_words k c) (count_text k c).
Proof.
  intros I H. destruct c as [z|]; [|apply reads_empty]. cbn [count_words count_text].
  pose proof (reads_int z) as R. unfold int_toks in R.
  assert ((z <? 0)%Z = false) as L by (apply Z.ltb_ge; exact H). rewrite L in R.
  change [K k; Ztok z] with ([K k] ++ [Ztok z])%list.
  replace (" " ++ k ++ " " ++ str_of_Z z) with ((" " ++ k ++ " ") ++ str_of_Z z) by (now rewrite !sapp_assoc).
  eapply closed_app; [|exact R].
  destruct I as [<-|[<-|[]]]; apply closed_val; vm_compute; reflexivity.
Qed.
Lemma sort_reads en o x : fine_expr en (o_value x) -> reads (sort_text o x) (order_toks toks x).
Proof.
  intros [[L _] _]. change (sort_text o x) with
    (sql (o_value x) o ++ (if o_desc x then " DESC" else "") ++ (if o_nulls_first x then " NULLS FIRST" else "")).
  pose proof (reads_order (fun e => sql e o) toks x (reads_sql _ o L)) as R. now destruct x.
Qed.
Lemma sorts_reads en o l : l <> [] -> (forall x, In x l -> fine_expr en (o_value x)) ->
  reads (String.concat ", " (map (sort_text o) l)) (commas (map (order_toks toks) l)).
Proof.
  induction l as [|x l IH]; intros N H; [congruence|]. destruct l as [|y l].
  - cbn [map String.concat]. unfold commas. cbn [map tjoin]. apply (sort_reads en), H. now left.
  - change (String.concat ", " (map (sort_text o) (x :: y :: l)))
      with (sort_text o x ++ ", " ++ String.concat ", " (map (sort_text o) (y :: l))).
    change (commas (map (order_toks toks) (x :: y :: l)))
      with (order_toks toks x ++ [TSym ","] ++ commas (map (order_toks toks) (y :: l)))%list.
    apply reads_app; [apply (sort_reads en), H; now left | reflexivity |].
    eapply closed_app; [apply closed_val; vm_compute; reflexivity|].
    apply IH; [discriminate|]. intros z Hz. apply H. now right.
Qed.
Lemma ending_blank o ob off lim : starts_blank (ending o ob off lim).
Proof.
  unfold ending. destruct ob; [|right; eexists; reflexivity].
  destruct off; [right; eexists; reflexivity|]. apply count_blank.
Qed.
Lemma ending_reads en o ob off lim : ending_fine en ob off lim ->
  reads (ending o ob off lim) (ending_toks ob off lim).
Proof.
  intros (Ho & Hf & Hl). unfold ending, ending_toks.
  assert (T : reads (count_words "OFFSET" off ++ count_words "LIMIT" lim)
                    (count_text "OFFSET" off ++ count_text "LIMIT" lim)%list).
  { apply blank_reads; [apply count_reads; cbn; tauto | apply count_blank | apply count_reads; cbn; tauto]. }
  assert (B : starts_blank (count_words "OFFSET" off ++ count_words "LIMIT" lim)).
  { destruct off; [right; eexists; reflexivity|]. apply count_blank. }
  apply blank_reads; [|exact B|exact T]. unfold orders_text. rewrite <- orders_toks_map.
  destruct ob as [|x l]; [apply reads_empty|]. unfold orders_toks.
  change (Tokens.K "ORDER" :: Tokens.K "BY" :: commas (map (order_toks toks) (x :: l)))
    with ([Tokens.K "ORDER"; Tokens.K "BY"] ++ commas (map (order_toks toks) (x :: l)))%list.
  eapply closed_app; [apply closed_val; vm_compute; reflexivity|]. apply (sorts_reads en); [discriminate|exact Ho].
Qed.

(** * Reading *)
(** The tightness of the operator that comes next, if one does. *)
Definition next_tightness (ts : list token) : nat :=
  match ts with TKw w _ :: _ => match set_kw w with Some (p, _) => p | None => 0 end | _ => 0 end.
Lemma loop_stops pt k lvl v ts : next_tightness ts < lvl -> term_loop pt (S k) lvl v ts = Ok (v, ts).
Proof.
  intro H. cbn [term_loop]. destruct ts as [|[w t| | | | | | | | | | |s|c] r]; try reflexivity.
  cbn [next_tightness] in H. destruct (set_kw w) as [[p op]|]; [|reflexivity].
  apply Nat.leb_gt in H. now rewrite H.
Qed.
Lemma tree_first en t r : xfine en t ->
  exists k x ts, (xtoks t ++ r)%list = TKw k x :: ts /\ mem k ["SELECT"; "TABLE"; "VALUES"] = true.
Proof.
  revert r. induction t as [q|op quant l IHl r' IHr]; intro r; cbn [xfine xtoks].
  - intros ((_ & G) & Q & B). pose proof (co_first _ _ _ (core_of en q G Q B)) as F.
    destruct (toks q) as [|[k x| | | | | | | | | | |s|c] ts]; try contradiction. cbn [app]. eauto.
  - intros [Fl _]. rewrite <- app_assoc. apply IHl. exact Fl.
Qed.
Lemma quantifier_read en quant t rest : xfine en t ->
  p_set_quant (quantifier_toks quant ++ xtoks t ++ rest)%list
  = (match quant with None => None | Some d => Some (quant_text d) end, (xtoks t ++ rest)%list).
Proof.
  intro F. destruct quant as [[]|]; [reflexivity..|]. cbn [quantifier_toks app].
  destruct (tree_first en t rest F) as (k & x & ts & -> & M). cbn [p_set_quant].
  destruct (mem k ["DISTINCT"; "ALL"]) eqn:D; [|reflexivity]. exfalso. unfold mem in *. cbn [existsb] in *.
  repeat match type of D with context [String.eqb k ?w] => destruct (String.eqb_spec k w) as [->|] end;
    discriminate.
Qed.
Lemma rank_operator op ts : rank (K (operator_word op) :: ts) = 10.
Proof. destruct op; reflexivity. Qed.
Lemma tree_read en t : xfine en t -> natural t ->
  forall n lvl rest, 8 * length (xtoks t) + 1 <= n -> lvl <= tree_tightness t -> 6 <= rank rest ->
    next_tightness rest <= tree_tightness t ->
  exists m k, n = S m /\ length rest < k
    /\ p_term en n lvl (xtoks t ++ rest) = term_loop (p_term en m) k lvl (xbuild t) rest.
Proof.
  induction t as [q|op quant l IHl r IHr]; intros F N n lvl rest Hn Hl R Hr.
  - cbn [xfine xtoks xbuild] in *. destruct F as ((_ & G) & Q & B). pose proof (core_of en q G Q B) as C.
    destruct n as [|n]; [lia|]. exists n, (S (length rest)). split; [reflexivity|]. split; [lia|].
    change (p_term en (S n) lvl ?ts) with
        (term_body (p_term en n) (p_query_primary (p_bool en n 0) (p_primary en n) (p_relation en n)
                              (p_query_no_with en n)) lvl ts).
    unfold term_body. rewrite (co_read _ _ _ C) by lia. reflexivity.
  - cbn [xfine natural xtoks] in *. destruct F as [Fl Fr], N as (Nl & Nr & Tl & Tr).
    rewrite !app_length in Hn. cbn [length] in Hn. rewrite app_length in Hn.
    cbn [tree_tightness] in Hl, Hr.
    set (tail := (K (operator_word op) :: quantifier_toks quant ++ xtoks r ++ rest)%list).
    assert (T : next_tightness tail = tightness op) by (subst tail; destruct op; reflexivity).
    destruct (IHl Fl Nl n lvl tail) as (m & k & En & Lk & P); [lia | lia | subst tail; rewrite rank_operator; lia | lia |].
    subst n. rewrite <- app_assoc. cbn [app]. rewrite <- app_assoc. fold tail. rewrite P. exists m.
    destruct k as [|k]; [cbn in Lk; lia|]. exists k. split; [reflexivity|].
    split. { subst tail. cbn [length] in Lk. rewrite !app_length in Lk. lia. }
    subst tail. unfold Tokens.K. rewrite loop_step.
    destruct (IHr Fr Nr m (S (tightness op)) rest) as (m' & k' & -> & Lk' & P'); [lia | lia | exact R | lia |].
    rewrite (quantifier_read en quant r rest Fr).
    assert (set_kw (operator_word op) = Some (tightness op, op)) as -> by (destruct op; reflexivity).
    apply Nat.leb_le in Hl. rewrite Hl, P'. destruct k' as [|k']; [lia|].
    rewrite loop_stops by lia. cbn [bind]. f_equal. cbn [xbuild]. unfold v_set.
    destruct (xbuild l) as [a|]; cbn [bind]; [|reflexivity].
    destruct (xbuild r) as [b|]; cbn [bind]; [|reflexivity].
    destruct quant as [[]|]; reflexivity.
Qed.

(** The attributes go to the outermost operation. *)
Definition finished (ob : list (order node)) (off lim : option Z) (q : node) : node :=
  match q with
  | NSetQuery op l r d _ => NSetQuery op l r d (mkQ [] ob off lim)
  | NSelect a b c d e f g _ => NSelect a b c d e f g (mkQ [] ob off lim)
  | NTableQuery a _ => NTableQuery a (mkQ [] ob off lim)
  | NValues a _ => NValues a (mkQ [] ob off lim)
  | _ => q
  end.
Lemma xbuild_shape en t q : xfine en t -> xbuild t = Ok q ->
  match q with
  | NSelect _ _ _ _ _ _ _ a | NTableQuery _ a | NValues _ a | NSetQuery _ _ _ _ a => a = no_qattrs
  | _ => False
  end.
Proof.
  destruct t as [q'|op quant l r]; cbn [xfine xbuild].
  - intros (_ & _ & B) [= <-]. now destruct q'.
  - intros _ E. destruct (xbuild l) as [a|]; cbn [bind] in E; [|discriminate E].
    destruct (xbuild r) as [b|]; cbn [bind] in E; [|discriminate E].
    unfold mk in E. destruct (check _); cbn [bind] in E; [|discriminate E]. now injection E as <-.
Qed.
Theorem C51_read : forall en o t ob off lim,
  xfine en t -> natural t -> ending_fine en ob off lim ->
  query_from_sql en (xtext o t ++ ending o ob off lim)
  = (let* q := xbuild t in Ok (finished ob off lim q)).
Proof.
  intros en o t ob off lim F N E.
  pose proof (blank_reads _ _ _ _ (xtext_reads en o t F) (ending_blank o ob off lim) (ending_reads en o ob off lim E)) as R.
  unfold query_from_sql. rewrite (reads_lex _ _ R). clear R. destruct E as (Ho & Hf & Hl).
  set (tail := ending_toks ob off lim). set (tob := map (order_fmap toks) ob).
  assert (R8 : 7 < rank (count_text "LIMIT" lim)).
  { pose proof (rank_limit lim [] ltac:(cbn; lia)) as X. now rewrite app_nil_r in X. }
  pose proof (rank_offset off _ R8) as R7. pose proof (rank_orders tob _ R7) as R6. 
  change (5 < rank tail) in R6.
  assert (NT : next_tightness tail = 0).
  { subst tail. unfold ending_toks, orders_text. fold tob.
    destruct tob; [|reflexivity]. destruct off; [reflexivity|]. destruct lim; reflexivity. }
  unfold query_of_tokens, parse_fuel. set (ts := (xtoks t ++ tail)%list).
  replace (8 * length ts + 8) with (S (S (8 * length ts + 6))) by lia.
  generalize (eq_refl (8 * length ts + 6)). generalize (8 * length ts + 6) at 1 3. intros n En.
  change (p_query en (S (S n)) ts) with (query_body (p_query_no_with en (S n)) (p_query en (S n)) ts).
  unfold query_body.
  assert (eat_kw "WITH" ts = None) as ->.
  { subst ts. destruct (tree_first en t tail F) as (k & x & r & -> & M). cbn [eat_kw].
    destruct (String.eqb_spec k "WITH") as [->|]; [discriminate M|reflexivity]. }
  change (p_query_no_with en (S n) ts) with (qnw_body (p_term en n 0) (p_bool en n 0) ts).
  unfold qnw_body, ts. subst ts. rewrite app_length in En.
  destruct (tree_read en t F N n 0 tail) as (m & k & _ & Lk & P); [lia | lia | lia | lia |].
  rewrite P. destruct k as [|k]; [lia|]. clear P.
  assert (term_loop (p_term en m) (S k) 0 (xbuild t) tail = Ok (xbuild t, tail)) as ->.
  { cbn [term_loop]. destruct tail as [|[w x| | | | | | | | | | |s|c] r]; try reflexivity.
    cbn [next_tightness] in NT. destruct (set_kw w) as [[p op]|] eqn:W; [|reflexivity].
    exfalso. unfold set_kw in W. repeat match type of W with context [if ?b then _ else _] => destruct b end;
      try discriminate W; injection W as <- <-; discriminate NT. }
  cbn [bind]. unfold tail, ending_toks. fold tob.
  assert (OE : orders_end (count_text "OFFSET" off ++ count_text "LIMIT" lim)).
  { pose proof (rank_end _ (Nat.le_trans 1 7 _ ltac:(lia) R7)) as C.
    split; [apply C|]. split; [apply C|]. apply (rank_absent _ _ 6); [cbn; tauto | lia]. }
  assert (Exo_ob : Forall2 (order_rel (Exo en)) ob tob).
  { apply same_orders. intros x Hx. apply in_map_iff in Hx as (y & <- & Hy). destruct (Ho y Hy) as [[_ G] Ex].
    exists (cat (o_value y)). pose proof (rb_expr _ _ _ (main _ _ _ G) Ex) as X.
    rewrite (unvar_same en [] _ G) in X by auto. exact X. }
  assert (Lo : length (orders_text tob) <= length tail).
  { unfold tail, ending_toks. fold tob. rewrite app_length. lia. }
  rewrite (p_orderby_ok (p_bool en n 0) ob tob); [| apply orders_Rd; auto; lia | exact OE]. cbn [bind].
  rewrite <- (app_nil_r (count_text "LIMIT" lim)).
  rewrite count_offset by (auto; rewrite app_nil_r; lia). cbn [bind]. rewrite count_limit by (auto; cbn; lia). cbn [bind].
  unfold v_query. destruct (xbuild t) as [q|e] eqn:B; cbn [bind v_query_no_with]; [|reflexivity].
  pose proof (xbuild_shape en t q F B) as S.
  unfold v_query_no_with, finished. cbn [bind].
  destruct q; try contradiction; cbn in S; subst qa; destruct ob, off, lim; reflexivity.
Qed.
Print Assumptions C51_read.

(** If the objects can be built (C43 says when for UNION), the tree is what is read. *)
Lemma built en t : xfine en t -> made (xnode t) -> xbuild t = Ok (xnode t).
Proof.
  induction t as [q|op quant l IHl r IHr]; [reflexivity|]. cbn [xfine xnode xbuild]. intros [Fl Fr] M.
  assert (made (xnode l) /\ made (xnode r)) as [Ml Mr].
  { destruct M as [ty M]. unfold made. cbn [check] in M.
    destruct (check (xnode l)) as [a|]; [|destruct op; discriminate M].
    destruct (check (xnode r)) as [b|]; [eauto|].
    destruct op; cbn [bind] in M; try discriminate M.
    destruct (tyof (Ok a)); discriminate M. }
  rewrite IHl, IHr by assumption. cbn [bind]. now rewrite (made_mk _ M).
Qed.
Theorem C51_read_made : forall en o t ob off lim ty,
  xfine en t -> natural t -> ending_fine en ob off lim -> check (xnode t) = Ok ty ->
  query_from_sql en (xtext o t ++ ending o ob off lim) = Ok (finished ob off lim (xnode t)).
Proof.
  intros en o t ob off lim ty F N E M. rewrite C51_read by assumption.
  rewrite (built en t F) by (eexists; exact M). reflexivity.
Qed.
Print Assumptions C51_read_made.
(** INTERSECT ALL and EXCEPT ALL raise. *)
Theorem C51_all_raises : forall en o op l r ob off lim tl tr,
  op <> OpUnion -> let t := XOp op (Some false) l r in
  xfine en t -> natural t -> ending_fine en ob off lim ->
  check (xnode l) = Ok tl -> check (xnode r) = Ok tr ->
  query_from_sql en (xtext o t ++ ending o ob off lim) = Err AssertionError.
Proof.
  intros en o op l r ob off lim tl tr NU t F N E Ml Mr. rewrite C51_read by assumption. subst t.
  cbn [xfine] in F. destruct F as [Fl Fr]. cbn [xbuild].
  rewrite (built en l Fl), (built en r Fr) by (eexists; eassumption). cbn [bind].
  unfold mk. cbn [check]. rewrite Ml, Mr. destruct op; try congruence; reflexivity.
Qed.
Print Assumptions C51_all_raises.

(** * Every such text has a reading: the same queries and operators in the same
    order, grouped naturally. *)
Fixpoint queries_of (t : xtree) : list node :=
  match t with XQuery q => [q] | XOp _ _ l r => (queries_of l ++ queries_of r)%list end.
Fixpoint operators_of (t : xtree) : list (set_op * option bool) :=
  match t with XQuery _ => [] | XOp op quant l r => (operators_of l ++ (op, quant) :: operators_of r)%list end.
Fixpoint add_query (t : xtree) (op : set_op) (quant : option bool) (q : node) : xtree :=
  match t with
  | XOp op' quant' l r =>
      if Nat.ltb (tightness op') (tightness op) then XOp op' quant' l (add_query r op quant q)
      else XOp op quant t (XQuery q)
  | XQuery _ => XOp op quant t (XQuery q)
  end.
Fixpoint add_tree (t : xtree) (op : set_op) (quant : option bool) (r : xtree) : xtree :=
  match r with
  | XQuery q => add_query t op quant q
  | XOp op' quant' l' r' => add_tree (add_tree t op quant l') op' quant' r'
  end.
Fixpoint regroup (t : xtree) : xtree :=
  match t with XQuery q => t | XOp op quant l r => add_tree (regroup l) op quant r end.
Lemma add_query_natural t op quant q : natural t ->
  natural (add_query t op quant q) /\ Nat.min (tightness op) (tree_tightness t) <= tree_tightness (add_query t op quant q).
Proof.
  induction t as [q'|op' quant' l IHl r IHr]; intro N; cbn [add_query].
  - cbn [natural tree_tightness]. destruct op; cbn [tightness]; repeat split; lia.
  - destruct (Nat.ltb_spec (tightness op') (tightness op)) as [L|L].
    + cbn [natural] in N. destruct N as (Nl & Nr & Tl & Tr). destruct (IHr Nr) as [N' T'].
      cbn [natural tree_tightness]. repeat split; try assumption; lia.
    + cbn [natural] in N. cbn [natural tree_tightness].
      split; [|lia]. split; [exact N|]. destruct op; cbn [tightness] in *; repeat split; lia.
Qed.
Lemma add_tree_natural r : forall t op quant, natural t -> natural (add_tree t op quant r).
Proof.
  induction r as [q|op' quant' l IHl r IHr]; intros t op quant N; cbn [add_tree].
  - now apply add_query_natural.
  - apply IHr, IHl, N.
Qed.
Lemma regroup_natural t : natural (regroup t).
Proof. induction t; cbn [regroup]; [exact I | now apply add_tree_natural]. Qed.
(** What does not depend on the grouping. *)
Lemma add_query_same t op quant q :
  (forall o, xtext o (add_query t op quant q) = xtext o (XOp op quant t (XQuery q)))
  /\ queries_of (add_query t op quant q) = queries_of (XOp op quant t (XQuery q))
  /\ operators_of (add_query t op quant q) = operators_of (XOp op quant t (XQuery q)).
Proof.
  induction t as [q'|op' quant' l IHl r (T & Q & O)]; cbn [add_query]; [repeat split|].
  destruct (Nat.ltb _ _); [|repeat split]. split; [|split].
  - intro o. cbn [xtext]. rewrite T. cbn [xtext]. now rewrite !sapp_assoc.
  - cbn [queries_of]. rewrite Q. cbn [queries_of]. now rewrite !app_assoc.
  - cbn [operators_of]. rewrite O. cbn [operators_of]. now rewrite <- !app_assoc.
Qed.
Lemma add_tree_same r : forall t op quant,
  (forall o, xtext o (add_tree t op quant r) = xtext o (XOp op quant t r))
  /\ queries_of (add_tree t op quant r) = queries_of (XOp op quant t r)
  /\ operators_of (add_tree t op quant r) = operators_of (XOp op quant t r).
Proof.
  induction r as [q|op' quant' l IHl r IHr]; intros t op quant; cbn [add_tree]; [apply add_query_same|].
  destruct (IHr (add_tree t op quant l) op' quant') as (T & Q & O). destruct (IHl t op quant) as (T' & Q' & O').
  split; [|split].
  - intro o. rewrite T. cbn [xtext]. rewrite T'. cbn [xtext]. now rewrite !sapp_assoc.
  - rewrite Q. cbn [queries_of]. rewrite Q'. cbn [queries_of]. now rewrite !app_assoc.
  - rewrite O. cbn [operators_of]. rewrite O'. cbn [operators_of]. now rewrite <- !app_assoc.
Qed.
Lemma xfine_queries en t : xfine en t <-> forall q, In q (queries_of t) -> fine en q /\ is_q q = true /\ bare q.
Proof.
  induction t as [q|op quant l IHl r IHr]; cbn [xfine queries_of].
  - split; [intros H x [<-|[]]; exact H | intro H; apply H; now left].
  - rewrite IHl, IHr. split.
    + intros [A B] x Hx. apply in_app_iff in Hx as [Hx|Hx]; auto.
    + intro H. split; intros x Hx; apply H, in_app_iff; auto.
Qed.
Theorem C51_every_text : forall t, exists t',
  natural t' /\ (forall o, xtext o t' = xtext o t)
  /\ queries_of t' = queries_of t /\ operators_of t' = operators_of t
  /\ (forall en, xfine en t -> xfine en t').
Proof.
  intro t. exists (regroup t). split; [apply regroup_natural|].
  assert (S : (forall o, xtext o (regroup t) = xtext o t) /\ queries_of (regroup t) = queries_of t
              /\ operators_of (regroup t) = operators_of t).
  { induction t as [q|op quant l (T & Q & O) r _]; cbn [regroup]; [repeat split|].
    destruct (add_tree_same r (regroup l) op quant) as (T' & Q' & O'). split; [|split].
    - intro o. rewrite T'. cbn [xtext]. now rewrite T.
    - rewrite Q'. cbn [queries_of]. now rewrite Q.
    - rewrite O'. cbn [operators_of]. now rewrite O. }
  destruct S as (T & Q & O). repeat split; try assumption.
  intros en F. apply xfine_queries. rewrite Q. now apply xfine_queries.
Qed.
Print Assumptions C51_every_text.

(** Grouping otherwise would give another object: the text above does not
    determine a tree that is not grouped naturally. *)
Local Definition tab (n : string) : node := NTableQuery (NTable n None None) no_qattrs.
Local Definition one : node := NSelect [NLit (LInt 1) integer] None None None None false [] no_qattrs.
Local Definition chain : xtree :=
  XOp OpExcept None
    (XOp OpUnion (Some false) (XQuery one) (XOp OpIntersect (Some true) (XQuery (tab "b")) (XQuery (tab "c"))))
    (XQuery (tab "d")).
Local Definition by_one : list (order node) := [mkOrder (NLit (LInt 1) integer) true false].
Local Lemma one_fine : fine bare_env one.
Proof. split; [now apply (lexable_dec 5) | now apply (good_dec _ 5)]. Qed.
Local Lemma lit_fine : fine bare_env (NLit (LInt 1) integer).
Proof. split; [now apply (lexable_dec 5) | now apply (good_dec _ 5)]. Qed.
Local Lemma tab_fine n : In n ["b"; "c"; "d"] -> fine bare_env (tab n).
Proof. intros [<-|[<-|[<-|[]]]]; (split; [now apply (lexable_dec 5) | now apply (good_dec _ 5)]). Qed.
Local Lemma chain_fine t :
  (forall q, In q (queries_of t) -> q = one \/ exists n, q = tab n /\ In n ["b"; "c"; "d"]) -> xfine bare_env t.
Proof.
  intro H. apply xfine_queries. intros q Hq.
  destruct (H q Hq) as [->|(n & -> & I)]; (split; [|split; reflexivity]); [apply one_fine | now apply tab_fine].
Qed.
Example C51_case :
  xfine bare_env chain /\ natural chain /\ ending_fine bare_env by_one (Some 2%Z) None
  /\ is_ok (check (xnode chain)) = true
  /\ xtext default_opts chain ++ ending default_opts by_one (Some 2%Z) None
     = "SELECT 1 UNION ALL TABLE ""b"" INTERSECT DISTINCT TABLE ""c"" EXCEPT TABLE ""d"" ORDER BY 1 DESC OFFSET 2"
  /\ query_from_sql bare_env
       "SELECT 1 UNION ALL TABLE ""b"" INTERSECT DISTINCT TABLE ""c"" EXCEPT TABLE ""d"" ORDER BY 1 DESC OFFSET 2"
     = Ok (NSetQuery OpExcept
             (NSetQuery OpUnion one (NSetQuery OpIntersect (tab "b") (tab "c") true no_qattrs) false no_qattrs)
             (tab "d") true (mkQ [] by_one (Some 2%Z) None)).
Proof.
  split; [|split; [|split; [|split; [|split]]]].
  - apply chain_fine. intros q [<-|[<-|[<-|[<-|[]]]]]; [now left|right..]; eexists; (split; [reflexivity|cbn; tauto]).
  - cbn [chain natural tree_tightness tightness]. repeat split; lia.
  - split; [|split; [lia | exact I]]. intros x [<-|[]]. split; [apply lit_fine | reflexivity].
  - vm_compute; reflexivity.
  - vm_compute; reflexivity.
  - vm_compute; reflexivity.
Qed.
Example C51_all_case :
  query_from_sql bare_env "TABLE ""b"" EXCEPT ALL TABLE ""c""" = Err AssertionError
  /\ is_ok (check (tab "b")) = true.
Proof. vm_compute; split; reflexivity. Qed.
Theorem C51_grouping_refuted :
  exists t, ~ natural t /\ xfine bare_env t /\ is_ok (check (xnode t)) = true
    /\ query_from_sql bare_env (xtext default_opts t) <> Ok (xnode t).
Proof.
  exists (XOp OpExcept None (XQuery (tab "b")) (XOp OpExcept None (XQuery (tab "c")) (XQuery (tab "d")))).
  split; [cbn [natural tree_tightness tightness]; lia|]. split; [|split].
  - apply chain_fine. intros q [<-|[<-|[<-|[]]]]; right; eexists; (split; [reflexivity|cbn; tauto]).
  - vm_compute; reflexivity.
  - vm_compute. discriminate.
Qed.
Print Assumptions C51_grouping_refuted.
