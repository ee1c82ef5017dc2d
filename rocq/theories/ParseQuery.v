(** Facts about the query parser, part 2: select items, grouping, windows and
    the clauses of a query. *)
From Coq Require Import String Ascii List ZArith NArith Bool Lia Arith.
From Verif Require Import PyStr StrFacts Types Inference Lexer LexFacts TypeParser TypeFacts TypeRoundTrip
  Functions FunctionFacts Ast Sql Parser Tokens ReadsFacts ParseBase ParseParts ParseExpr ParsePrim ParseForms
  ParseRel.
Import ListNotations.
Open Scope nat_scope.
Open Scope string_scope.
Open Scope list_scope.

(** * Select items *)
Record Si (en : env) (x : node) (ts : list token) : Prop := {
  si_quant : forall k, p_quant (ts ++ k) = (None, ts ++ k);
  si_read : forall n rest, 8 * length ts + 4 <= n -> ender rest ->
    p_select_item (p_bool en n 0) (p_primary en n) (ts ++ rest) = Ok (Ok x, rest) }.

Lemma Si_star en : Si en (NStar TRNone unknown) [TSym "*"].
Proof. constructor; reflexivity. Qed.
Lemma Si_expr en x ts : Exo en x ts -> Si en x ts.
Proof.
  intro E. pose proof E as [c X]. pose proof (ex_shape _ _ _ _ X) as S.
  pose proof (shape_weak _ 0 _ S ltac:(lia) ltac:(lia)) as S0. constructor.
  - intro k. now apply quant_none.
  - intros n rest Hn R. unfold p_select_item. rewrite not_sym by (auto; reflexivity).
    rewrite (Exo_Rd en x ts n E) by (auto; apply R). cbn [bind]. rewrite (en_dot _ R), (en_alias _ R).
    reflexivity.
Qed.
Lemma Si_aliased en x ts a :
  Exo en x ts -> inner dquote a = true -> made (NAliased x a) -> Si en (NAliased x a) (ts ++ [qid a]).
Proof.
  intros E I T. pose proof E as [c X]. pose proof (ex_shape _ _ _ _ X) as S.
  pose proof (shape_weak _ 0 _ S ltac:(lia) ltac:(lia)) as S0. constructor.
  - intro k. rewrite <- app_assoc. now apply quant_none.
  - intros n rest Hn R. rewrite app_length in Hn. cbn [length] in Hn. rewrite <- app_assoc. cbn [app].
    unfold p_select_item. rewrite not_sym by (auto; reflexivity).
    rewrite (Exo_Rd en x ts n E) by (reflexivity || lia). cbn [bind].
    change (eat_sym "." (qid a :: rest)) with (@None (list token)). cbn iota.
    change (p_alias (qid a :: rest)) with (Ok (Some (IdQuoted (quote_identifier a)), rest)). cbn [bind].
    unfold v_select_single. cbn [bind]. rewrite (visit_qid a I). cbn [bind]. now rewrite (made_mk _ T).
Qed.
Lemma Si_table_star en n : Si en (NStar (TRStr n) unknown) [TId n; TSym "."; TSym "*"].
Proof.
  constructor; [reflexivity|]. intros m rest Hm R. cbn [length] in Hm.
  do 4 (destruct m as [|m]; [lia|]). cbn [app].
  change (p_select_item (p_bool en (S (S (S (S m)))) 0) (p_primary en (S (S (S (S m)))))
            (TId n :: TSym "." :: TSym "*" :: rest))
    with (match eat_kw "AS" rest with
          | Some r3 => let* (l, r4) := p_columns r3 in
                       Ok (v_select_all (Ok (NField n TRNone unknown)) (Some l), r4)
          | None => Ok (v_select_all (Ok (NField n TRNone unknown)) None, rest)
          end).
  assert (eat_kw "AS" rest = None) as ->; [|reflexivity].
  pose proof (en_alias _ R) as A. unfold p_alias in A. destruct (eat_kw "AS" rest) as [r|]; [|reflexivity].
  destruct (p_ident r) as [[i r1]|]; discriminate.
Qed.

(** * Grouping *)
Definition gend (rest : list token) : Prop := lev rest = 0 /\ continues rest = false.
(** A set of one expression does not start with a parenthesis. *)
Definition no_open (ts : list token) : bool :=
  match ts with TSym s :: _ => negb (String.eqb s "(") | _ => true end.
Definition gset_ex (en : env) (l : list node) (tl : list (list token)) : Prop :=
  Exs en l tl /\ match tl with [t] => no_open t = true | _ => True end.
Definition gset_text (tl : list (list token)) : list token := set_toks (fun t => t) tl.
Lemma no_open_sym ts r : no_open ts = true -> ts <> [] -> eat_sym "(" (ts ++ r) = None.
Proof.
  intros H N. destruct ts as [|[ | | | | | | | | | | |s| ] ts]; try reflexivity; [congruence|].
  cbn [no_open] in H. apply negb_true_iff in H. cbn [app eat_sym].
  destruct (String.eqb_spec s "("); [subst; discriminate|]. destruct (String.eqb_spec "(" s); [congruence|reflexivity].
Qed.
Lemma Exs_in en l tl t : Exs en l tl -> In t tl -> exists e, Exo en e t.
Proof. intro H. induction H as [|e ts l tl E F IH]; [intros []|]. intros [->|I]; [exists e; exact E | auto]. Qed.
Lemma exprs_opt_ok en n l tl rest :
  Exs en l tl -> 8 * length (commas tl) + 4 <= n ->
  p_exprs_opt (p_bool en n 0) (commas tl ++ TSym ")" :: rest) = Ok (Ok l, TSym ")" :: rest).
Proof.
  intros H Hn. unfold p_exprs_opt. destruct l as [|x l].
  - inversion H; subst. reflexivity.
  - assert (eat_sym ")" (commas tl ++ TSym ")" :: rest) = None) as ->.
    { pose proof (Exs_shapes _ _ _ H) as F. pose proof (Exs_nonempty _ _ _ H ltac:(discriminate)) as N.
      destruct F as [|ts tss S F]; [congruence|].
      destruct (commas_first ts tss (TSym ")" :: rest)) as (k & -> & _). now apply not_sym. }
    apply exprs_ok; try reflexivity; [|discriminate]. apply Rx_Rd. apply ex_rxs; auto.
Qed.
Lemma gset_ok en n l tl rest :
  gset_ex en l tl -> 8 * length (gset_text tl) + 4 <= n -> gend rest ->
  p_gset (p_bool en n 0) (gset_text tl ++ rest) = Ok (Ok l, rest).
Proof.
  intros [H P] Hn [L C]. unfold gset_text in *. unfold p_gset.
  destruct tl as [|t [|u tl]].
  - inversion H; subst. cbn. rewrite C. reflexivity.
  - inversion H as [|e ? ? ? [c E] F]; subst. inversion F; subst. cbn [set_toks] in *.
    rewrite no_open_sym; [| exact P | destruct (ex_shape _ _ _ _ E) as [S _ _ _]; destruct t; [contradiction|discriminate]].
    rewrite (ex_rd en c e t n E) by (auto; lia). reflexivity.
  - cbn [set_toks] in *. unfold paren in *. cbn [app length] in *. rewrite app_length in Hn. cbn [length] in Hn.
    rewrite eat_sym_same, <- app_assoc. cbn [app]. rewrite map_id in *.
    rewrite (exprs_opt_ok en n l); [| exact H | lia]. cbn [bind]. rewrite eat_sym_same. cbn [need bind].
    rewrite C. reflexivity.
Qed.
Definition group_ex (en : env) (x : group node) (y : group (list token)) : Prop :=
  match x, y with
  | GSet l, GSet tl => gset_ex en l tl
  | GSets ll, GSets tll => Forall2 (gset_ex en) ll tll /\ ll <> []
  | GCube l, GCube tl | GRollup l, GRollup tl => Exs en l tl
  | _, _ => False
  end.
Definition group_text (y : group (list token)) : list token := group_toks (fun t => t) y.
Definition group_valid (x : group node) : Prop := group_ok valid x = Ok tt.

Lemma Exo_valid en e ts : Exo en e ts -> valid e = Ok tt.
Proof.
  intros [c E]. destruct (ex_typed _ _ _ _ E) as [t H]. unfold valid. destruct (check e) as [x|x]; [reflexivity|].
  destruct e; discriminate H.
Qed.
Lemma all_ok_ok {A} (f : A -> result unit) l : (forall x, In x l -> f x = Ok tt) -> all_ok f l = Ok tt.
Proof. intro H. unfold all_ok. rewrite (each_ok f (fun _ => tt)); auto. Qed.
Lemma Exs_valid en l tl : Exs en l tl -> all_ok valid l = Ok tt.
Proof.
  intro H. apply all_ok_ok. induction H as [|e ts l tl E F IH]; [intros ? []|].
  intros x [<-|I]; [eapply Exo_valid; exact E | auto].
Qed.
Lemma group_ex_ok en x y : group_ex en x y ->
  match x with GCube l | GRollup l => l <> [] | _ => True end -> group_ok valid x = Ok tt.
Proof.
  destruct x as [l|ll|l|l], y as [tl|tll|tl|tl]; cbn [group_ex group_ok]; try contradiction.
  - intros [H _] _. eapply Exs_valid; eauto.
  - intros [H N] _. rewrite all_ok_ok.
    + destruct ll; [congruence | reflexivity].
    + clear N. induction H as [|l tl ll tll [E _] F IH]; [intros ? []|].
      intros x [<-|I]; [eapply Exs_valid; exact E | auto].
  - intros H N. rewrite (Exs_valid en l tl H). destruct l; [congruence | reflexivity].
  - intros H N. rewrite (Exs_valid en l tl H). destruct l; [congruence | reflexivity].
Qed.

Lemma group_kw k t r n en :
  starter (TKw k t) = true ->
  p_group (p_bool en n 0) (TKw k t :: r)
  = (let* (l, r) := p_gset (p_bool en n 0) (TKw k t :: r) in Ok (v_group (@GSet node) l, r)).
Proof.
  intro S. unfold p_group. destruct (String.eqb_spec k "ROLLUP") as [->|]; [discriminate S|].
  destruct (String.eqb_spec k "CUBE") as [->|]; [discriminate S|].
  destruct (String.eqb_spec k "GROUPING") as [->|]; [discriminate S|]. reflexivity.
Qed.
Lemma group_ok_read en n x y rest :
  group_ex en x y -> group_ok valid x = Ok tt -> 8 * length (group_text y) + 4 <= n -> gend rest ->
  p_group (p_bool en n 0) (group_text y ++ rest) = Ok (Ok x, rest).
Proof.
  intros H V Hn G. unfold group_text in *.
  destruct x as [l|ll|l|l], y as [tl|tll|tl|tl]; cbn [group_ex] in H; try contradiction.
  - cbn [group_toks] in *. fold (gset_text tl) in *.
    assert (P : p_group (p_bool en n 0) (gset_text tl ++ rest)
      = (let* (l, r) := p_gset (p_bool en n 0) (gset_text tl ++ rest) in Ok (v_group (@GSet node) l, r))).
    { destruct H as [H _]. unfold gset_text. destruct tl as [|t [|u tl]]; try reflexivity.
      cbn [set_toks]. inversion H as [|e ? ? ? [c E] F]; subst.
      destruct (ex_shape _ _ _ _ E) as [S _ _ _]. destruct t as [|[k| | | | | | | | | | |s|ch] t]; try contradiction; try reflexivity.
      cbn [app]. now apply group_kw. }
    rewrite P, (gset_ok en n l tl rest H Hn G). cbn [bind]. unfold v_group. cbn [bind]. rewrite V. reflexivity.
  - destruct H as [H N]. cbn [group_toks] in *. unfold paren in *.
    change (map (set_toks (fun t : list token => t)) tll) with (map gset_text tll) in *.
    cbn [length] in Hn. rewrite app_length in Hn. cbn [length] in Hn.
    unfold p_group. cbn [app K String.eqb Ascii.eqb Bool.eqb eat_kw]. unfold p_parenthesised.
    rewrite eat_sym_same. cbn [need bind]. rewrite <- app_assoc. cbn [app].
    rewrite (sep_ok (p_gset (p_bool en n 0)) (TSym ")" :: rest) ll (map gset_text tll)); auto.
    + cbn [bind]. rewrite eat_sym_same. cbn [need bind]. unfold v_group. cbn [bind]. rewrite V. reflexivity.
    + assert (B : forall tl, In tl tll -> length (gset_text tl) <= length (commas (map gset_text tll))).
      { intros tl I. apply commas_length_in. now apply in_map. }
      clear N V. revert B Hn. generalize (length (commas (map gset_text tll))). intros b B Hn.
      induction H as [|l tl ll tll E F IH]; [constructor|]. cbn [map]. constructor; [|apply IH; intros; apply B; now right].
      intros r Hr. apply gset_ok; [exact E | specialize (B tl (or_introl eq_refl)); lia |].
      destruct Hr as [->|[r' ->]]; split; reflexivity.
  - cbn [group_toks] in *. unfold paren in *. rewrite map_id in *.
    cbn [length] in Hn. rewrite app_length in Hn. cbn [length] in Hn.
    unfold p_group. cbn [app K String.eqb Ascii.eqb Bool.eqb eat_kw]. unfold p_parenthesised.
    rewrite eat_sym_same. cbn [need bind]. rewrite <- app_assoc. cbn [app].
    rewrite (exprs_opt_ok en n l); [| exact H | lia]. cbn [bind]. rewrite eat_sym_same. cbn [need bind].
    unfold v_group. cbn [bind]. rewrite V. reflexivity.
  - cbn [group_toks] in *. unfold paren in *. rewrite map_id in *.
    cbn [length] in Hn. rewrite app_length in Hn. cbn [length] in Hn.
    unfold p_group. cbn [app K String.eqb Ascii.eqb Bool.eqb eat_kw]. unfold p_parenthesised.
    rewrite eat_sym_same. cbn [need bind]. rewrite <- app_assoc. cbn [app].
    rewrite (exprs_opt_ok en n l); [| exact H | lia]. cbn [bind]. rewrite eat_sym_same. cbn [need bind].
    unfold v_group. cbn [bind]. rewrite V. reflexivity.
Qed.
Lemma group_quant_none ts k : shape 0 ts -> p_group_quant (ts ++ k) = (None, ts ++ k).
Proof.
  intro H. pose proof (quant_none ts k H) as Q. destruct H as [S1 _ _ _]. destruct ts as [|t ts]; [contradiction|].
  destruct t as [w txt| | | | | | | | | | |s| ]; try reflexivity. cbn [app p_group_quant] in *.
  destruct (ts ++ k) as [|[] r]; try exact Q.
  destruct (String.eqb_spec w "ALL") as [->|]; [discriminate S1|]. exact Q.
Qed.
Lemma group_quant en x y k : group_ex en x y -> p_group_quant (group_text y ++ k) = (None, group_text y ++ k).
Proof.
  destruct x as [l|ll|l|l], y as [tl|tll|tl|tl]; cbn [group_ex]; try contradiction; try reflexivity.
  intros [H _]. unfold group_text. cbn [group_toks]. destruct tl as [|t [|u tl]]; try reflexivity.
  cbn [set_toks]. inversion H as [|e ? ? ? [c E] F]; subst. apply group_quant_none.
  apply (shape_weak c); [apply E | lia | lia].
Qed.

Definition groupby_ex (en : env) (x : groupby node) (y : groupby (list token)) : Prop :=
  Forall2 (fun g h => group_ex en g h /\ group_ok valid g = Ok tt) (g_groups x) (g_groups y)
  /\ g_groups x <> [] /\ g_distinct x = g_distinct y.
Definition groupby_text (y : groupby (list token)) : list token := groupby_toks (fun t => t) y.
Lemma groupby_read en n x y rest :
  groupby_ex en x y -> 8 * length (groupby_text y) + 4 <= n -> gend rest -> eat_sym "," rest = None ->
  p_groupby (p_bool en n 0) (groupby_text y ++ rest) = Ok (Ok x, rest).
Proof.
  destruct x as [gs d], y as [hs d']. unfold groupby_ex, groupby_text. cbn [g_groups g_distinct groupby_toks].
  intros (H & N & <-) Hn G C. change (group_toks (fun t : list token => t)) with group_text in *.
  rewrite app_length in Hn.
  assert (V : groupby_ok valid (mkG gs d) = Ok tt).
  { cbn [groupby_ok]. apply all_ok_ok. clear - H. induction H as [|g h gs hs [_ E] F IH]; [intros ? []|].
    intros x [<-|I]; auto. }
  assert (S : sep (p_group (p_bool en n 0)) (commas (map group_text hs) ++ rest) = Ok (Ok gs, rest)).
  { apply sep_ok; auto.
    assert (B : forall h, In h hs -> length (group_text h) <= length (commas (map group_text hs))).
    { intros h I. apply commas_length_in. now apply in_map. }
    clear N V. revert B Hn. generalize (length (commas (map group_text hs))). intros b B Hn.
    induction H as [|g h gs hs [E V] F IH]; [constructor|]. cbn [map].
    constructor; [|apply IH; intros; apply B; now right].
    intros r Hr. apply group_ok_read; auto; [specialize (B h (or_introl eq_refl)); lia |].
    destruct Hr as [->|[r' ->]]; [exact G | split; reflexivity]. }
  unfold p_groupby. destruct d.
  - assert (Q : p_group_quant ([K "DISTINCT"] ++ commas (map group_text hs) ++ rest)
                = (Some "DISTINCT", commas (map group_text hs) ++ rest))
      by (cbn [app K p_group_quant]; destruct (commas (map group_text hs) ++ rest) as [|[] ?]; reflexivity).
    cbn [app] in *. rewrite Q, S. cbn [bind]. unfold v_groupby.
    cbn [bind v_quant String.eqb Ascii.eqb Bool.eqb]. rewrite V. reflexivity.
  - cbn [app]. destruct H as [|g h gs hs [E _] F]; [congruence|]. cbn [map] in *.
    destruct (commas_first (group_text h) (map group_text hs) rest) as (k & Ek & _).
    rewrite Ek, (group_quant en g h k E), <- Ek, S. cbn [bind]. unfold v_groupby. cbn [bind]. rewrite V. reflexivity.
Qed.

(** * Windows of a query *)
Definition named_window_ex (en : env) (x : string * window node) (y : string * window (list token)) : Prop :=
  fst x = fst y /\ plain (fst x) = true /\ window_ex en (snd x) (snd y).
Definition named_window_text (y : string * window (list token)) : list token :=
  word_token (fst y) :: K "AS" :: paren (window_text (snd y)).
Definition windows_text (tl : list (string * window (list token))) : list token :=
  match tl with [] => [] | _ => K "WINDOW" :: commas (map named_window_text tl) end.
Lemma windef_ok en n x y rest :
  named_window_ex en x y -> 8 * length (named_window_text y) <= n ->
  p_windef (p_bool en n 0) (named_window_text y ++ rest) = Ok (Ok x, rest).
Proof.
  destruct x as [m w], y as [m' v]. unfold named_window_ex, named_window_text. cbn [fst snd].
  intros (<- & P & W) Hn. unfold paren in *. cbn [length] in Hn. rewrite app_length in Hn. cbn [length] in Hn.
  rewrite (plain_token m P). cbn [app]. unfold p_windef. cbn [p_ident bind]. rewrite eat_kw_same. cbn [need bind].
  unfold p_parenthesised. rewrite eat_sym_same. cbn [need bind]. rewrite <- app_assoc. cbn [app].
  rewrite (p_winspec_ok (p_bool en n 0) w v) by (apply (window_Rd en); auto; lia).
  cbn [bind]. rewrite eat_sym_same. reflexivity.
Qed.
Lemma windows_ok en n l tl rest :
  Forall2 (named_window_ex en) l tl -> 8 * length (windows_text tl) <= n -> 6 <= rank rest ->
  (let* (ws, r) := if clause_ahead (windows_text tl ++ rest)
     then p_clause "WINDOW" (sep (p_windef (p_bool en n 0))) (windows_text tl ++ rest)
     else Ok (None, windows_text tl ++ rest) in Ok (ws, r))
  = Ok (match l with [] => None | _ => Some (Ok l) end, rest).
Proof.
  intros H Hn R. destruct H as [|x y l tl E F].
  - cbn [windows_text app]. unfold p_clause. rewrite (rank_absent rest "WINDOW" 5); [| cbn; tauto | lia].
    destruct (clause_ahead rest); reflexivity.
  - cbn [windows_text] in *. cbn [length] in Hn. cbn [app].
    destruct (commas_first (named_window_text y) (map named_window_text tl) rest) as (k & Ek & _).
    cbn [map] in *.
    assert (clause_ahead (K "WINDOW" :: commas (named_window_text y :: map named_window_text tl) ++ rest) = true) as ->.
    { rewrite Ek. destruct x as [m w], y as [m' v]. destruct E as (E1 & P & _). cbn [fst] in *. subst m'.
      unfold named_window_text. cbn [fst]. rewrite (plain_token m P). reflexivity. }
    unfold p_clause. rewrite eat_kw_same.
    change (named_window_text y :: map named_window_text tl) with (map named_window_text (y :: tl)).
    rewrite (sep_ok (p_windef (p_bool en n 0)) rest (x :: l) (map named_window_text (y :: tl))).
    + reflexivity.
    + assert (B : forall h, In h (y :: tl) ->
                  length (named_window_text h) <= length (commas (map named_window_text (y :: tl)))).
      { intros h I. apply commas_length_in. now apply in_map. }
      assert (Hn' : 8 * length (commas (map named_window_text (y :: tl))) <= n) by (cbn [map]; lia).
      revert B Hn'. generalize (length (commas (map named_window_text (y :: tl)))). intros b B Hn'.
      clear Ek Hn. pose proof (Forall2_cons _ _ E F) as G. revert G B. generalize (x :: l) (y :: tl).
      intros l1 tl1 G B. induction G as [|x1 y1 l1 tl1 E1 F1 IH]; [constructor|]. cbn [map].
      constructor; [|apply IH; intros; apply B; now right].
      intros r _. apply windef_ok; [exact E1|]. specialize (B y1 (or_introl eq_refl)). lia.
    + discriminate.
    + apply rank_end. lia.
Qed.
Lemma dict_snoc {A} (l m : list (string * A)) :
  (forall x, In x (map fst l) -> ~ In x (map fst m)) -> distinct_names (map fst m) = true ->
  fold_left (fun d kv => dict_set (fst kv) (snd kv) d) m l = l ++ m.
Proof.
  revert l. induction m as [|[k v] m IH]; intros l D N; [now rewrite app_nil_r|]. cbn [fold_left fst snd].
  cbn [map fst distinct_names] in N. apply andb_true_iff in N as [N1 N2].
  assert (dict_set k v l = l ++ [(k, v)]) as ->.
  { assert (~ In k (map fst l)) as NI by (intro I; apply (D k I); now left). clear - NI.
    induction l as [|[k' v'] l IH]; [reflexivity|]. cbn [dict_set app]. cbn [map fst In] in NI.
    destruct (String.eqb_spec k' k); [intuition congruence|]. rewrite IH; [reflexivity | tauto]. }
  rewrite IH; [now rewrite <- app_assoc | | exact N2].
  intros x I. rewrite map_app, in_app_iff in I. cbn [map fst In] in I. destruct I as [I|[<-|[]]].
  - intro J. apply (D x I). now right.
  - intro J. apply negb_true_iff in N1. unfold mem in N1.
    assert (existsb (String.eqb k) (map fst m) = true) as Z by (apply existsb_exists; exists k; split; [exact J | apply String.eqb_refl]).
    congruence.
Qed.
Lemma dict_of_distinct {A} (l : list (string * A)) :
  distinct_names (map fst l) = true -> dict_of l = l.
Proof. intro N. unfold dict_of. now rewrite (dict_snoc [] l). Qed.

(** * Clauses *)
Lemma clause_absent {A} k j (p : list token -> pres A) rest :
  In (k, j) [("FROM", 1); ("WHERE", 2); ("GROUP", 3); ("HAVING", 4); ("WINDOW", 5); ("ORDER", 6);
             ("OFFSET", 7); ("LIMIT", 8)] ->
  j < rank rest -> p_clause k p rest = Ok (None, rest).
Proof. intros I H. unfold p_clause. now rewrite (rank_absent rest k j I H). Qed.
Definition expr_clause (k : string) (y : option (list token)) : list token :=
  match y with None => [] | Some t => K k :: t end.
(** An expression that is read as a certain value, and the value of the clause:
    [None] means that there is no such clause. *)
Definition cond_ex (en : env) (w x : option node) (y : option (list token)) : Prop :=
  opt_rel (reads_as en) x y /\ drop_absent x = w.
Lemma Exo_cond en x y : opt_rel (Exo en) x y -> cond_ex en x x y.
Proof.
  intro H. destruct x as [e|], y as [t|]; cbn [opt_rel] in H; try contradiction; [|split; [exact I | reflexivity]].
  split.
  - intros n Hn. now apply (Exo_Rd en e t n H).
  - destruct H as [c X]. pose proof (typed_not_none _ (ex_typed _ _ _ _ X)). destruct e; try reflexivity; congruence.
Qed.
Lemma expr_clause_ok en n k j x y rest :
  In (k, j) [("FROM", 1); ("WHERE", 2); ("GROUP", 3); ("HAVING", 4); ("WINDOW", 5); ("ORDER", 6);
             ("OFFSET", 7); ("LIMIT", 8)] ->
  opt_rel (reads_as en) x y -> 8 * length (expr_clause k y) <= n -> j < rank rest ->
  p_clause k (p_bool en n 0) (expr_clause k y ++ rest)
  = Ok (match x with None => None | Some e => Some (Ok e) end, rest).
Proof.
  intros I H Hn R. destruct x as [e|], y as [t|]; cbn [opt_rel] in H; try contradiction.
  - cbn [expr_clause app length] in *. unfold p_clause. rewrite eat_kw_same.
    rewrite (H n); [reflexivity | lia | apply rank_end; lia].
  - cbn [expr_clause app]. eapply clause_absent; eauto.
Qed.

(** Clauses as they follow each other. *)
Definition from_text (y : option (list token)) : list token := expr_clause "FROM" y.
Definition group_clause (y : option (groupby (list token))) : list token :=
  match y with None => [] | Some g => K "GROUP" :: K "BY" :: groupby_text g end.
Definition count_text (k : string) (c : option Z) : list token :=
  match c with None => [] | Some z => [K k; Ztok z] end.

Lemma rank_where y r : 2 < rank r -> 1 < rank (expr_clause "WHERE" y ++ r).
Proof. destruct y; cbn [expr_clause app]; [intro; cbn; lia | lia]. Qed.
Lemma rank_group y r : 3 < rank r -> 2 < rank (group_clause y ++ r).
Proof. destruct y; cbn [group_clause app]; [intro; cbn; lia | lia]. Qed.
Lemma rank_having y r : 4 < rank r -> 3 < rank (expr_clause "HAVING" y ++ r).
Proof. destruct y; cbn [expr_clause app]; [intro; cbn; lia | lia]. Qed.
Lemma rank_windows en l tl r :
  Forall2 (named_window_ex en) l tl -> 5 < rank r -> 4 < rank (windows_text tl ++ r).
Proof.
  intros [|x y l' tl' (E & P & _) F] R; [cbn [windows_text app]; lia|]. cbn [windows_text map app].
  destruct (commas_first (named_window_text y) (map named_window_text tl') r) as (k & -> & _).
  unfold named_window_text. rewrite <- E, (plain_token _ P). cbn. lia.
Qed.
Lemma rank_orders tl r : 6 < rank r -> 5 < rank (orders_text tl ++ r).
Proof. destruct tl; unfold orders_text; cbn [orders_toks app]; [lia | intro; cbn; lia]. Qed.
Lemma rank_offset c r : 7 < rank r -> 6 < rank (count_text "OFFSET" c ++ r).
Proof. destruct c; cbn [count_text app]; [intro; cbn; lia | lia]. Qed.
Lemma rank_limit c r : 8 < rank r -> 7 < rank (count_text "LIMIT" c ++ r).
Proof. destruct c; cbn [count_text app]; [intro; cbn; lia | lia]. Qed.
Lemma rank_qend r : qend r = true -> rank r = 9.
Proof.
  intro H. destruct r as [|[k| | | | | | | | | | |s|c] r]; try discriminate H; cbn [rank]; try reflexivity.
  now rewrite H.
Qed.

Lemma group_clause_ok en n x y rest :
  opt_rel (groupby_ex en) x y -> 8 * length (group_clause y) <= n -> 3 < rank rest ->
  p_clause "GROUP" (after_by (p_groupby (p_bool en n 0))) (group_clause y ++ rest)
  = Ok (match x with None => None | Some g => Some (Ok g) end, rest).
Proof.
  intros H Hn R. pose proof (rank_end rest ltac:(lia)) as E.
  destruct x as [g|], y as [h|]; cbn [opt_rel] in H; try contradiction.
  - cbn [group_clause app length] in *. unfold p_clause. rewrite eat_kw_same. unfold after_by.
    rewrite eat_kw_same. cbn [need bind]. rewrite (groupby_read en n g h); auto; [lia | | apply E].
    destruct E as [[] ]. split; assumption.
  - cbn [group_clause app]. apply (clause_absent _ 3); [cbn; tauto | exact R].
Qed.
Definition rel_reads_as (en : env) (r : node) (t : list token) : Prop :=
  forall n rest, 8 * length t < n -> clause_end rest -> p_relation en n (t ++ rest) = Ok (Ok r, rest).
Definition from_ex (en : env) (w x : option node) (y : option (list token)) : Prop :=
  opt_rel (rel_reads_as en) x y /\ drop_absent x = w.
Lemma Rl_from en x y : opt_rel (fun r ts => exists c, Rl en c r ts) x y -> from_ex en x x y.
Proof.
  intro H. destruct x as [r|], y as [t|]; cbn [opt_rel] in H; try contradiction; [|split; [exact I | reflexivity]].
  destruct H as [c L]. split.
  - intros n rest Hn E. apply (rl_read en c r t n rest L); [exact Hn | apply E ..].
  - pose proof (rl_some _ _ _ _ L). destruct r; try reflexivity; congruence.
Qed.
Lemma from_ok en n x y rest :
  opt_rel (rel_reads_as en) x y -> 8 * length (from_text y) <= n -> 1 < rank rest ->
  p_clause "FROM" (fun ts => p_from (p_relation en n) (S (length ts)) ts) (from_text y ++ rest)
  = Ok (match x with None => None | Some r => Some (Ok [r], 1) end, rest).
Proof.
  intros H Hn R. pose proof (rank_end rest ltac:(lia)) as E. unfold from_text in *.
  destruct x as [r|], y as [t|]; cbn [opt_rel] in H; try contradiction.
  - cbn [expr_clause app length] in *. unfold p_clause. rewrite eat_kw_same. cbn [p_from].
    rewrite (H n rest ltac:(lia) E). cbn [bind]. rewrite (ce_comma _ E). reflexivity.
  - cbn [expr_clause app]. apply (clause_absent _ 1); [cbn; tauto | exact R].
Qed.

(** * Queries without WITH and constraints *)
Record Core (en : env) (q : node) (ts : list token) : Prop := {
  co_first : match ts with TKw k _ :: _ => mem k ["SELECT"; "TABLE"; "VALUES"] = true | _ => False end;
  co_read : forall n rest, 8 * length ts <= n -> 6 <= rank rest ->
    p_query_primary (p_bool en n 0) (p_primary en n) (p_relation en n) (p_query_no_with en n) (ts ++ rest)
    = Ok (Ok q, rest) }.

Lemma items_ok en n l tl rest :
  Forall2 (Si en) l tl -> l <> [] -> 8 * length (commas tl) + 4 <= n -> 1 <= rank rest ->
  sep (p_select_item (p_bool en n 0) (p_primary en n)) (commas tl ++ rest) = Ok (Ok l, rest).
Proof.
  intros H N Hn R. pose proof (rank_end rest R) as E. apply sep_ok; [| exact N | apply E].
  assert (B : forall t, In t tl -> length t <= length (commas tl)) by (intros; now apply commas_length_in).
  clear N. revert B Hn. generalize (length (commas tl)). intros b B Hn.
  induction H as [|x t l tl S F IH]; [constructor|]. constructor; [|apply IH; intros; apply B; now right].
  intros r Hr. apply S; [specialize (B t (or_introl eq_refl)); lia|].
  destruct Hr as [->|[r' ->]]; [apply E | apply ender_comma].
Qed.
Lemma items_quant en l tl rest :
  Forall2 (Si en) l tl -> l <> [] -> p_quant (commas tl ++ rest) = (None, commas tl ++ rest).
Proof.
  intros [|x t l' tl' S F] N; [congruence|].
  destruct (commas_first t tl' rest) as (k & -> & _). apply S.
Qed.

Definition select_text (d : bool) (tl : list (list token)) (fr wh : option (list token))
           (gb : option (groupby (list token))) (hv : option (list token))
           (ws : list (string * window (list token))) : list token :=
  K "SELECT" :: (if d then [K "DISTINCT"] else []) ++ commas tl ++ from_text fr
  ++ expr_clause "WHERE" wh ++ group_clause gb ++ expr_clause "HAVING" hv ++ windows_text ws.

Lemma Core_select_conds en d l tl fr fr0 tfr wh wh0 twh gb tgb hv hv0 thv ws tws :
  Forall2 (Si en) l tl -> l <> [] ->
  from_ex en fr fr0 tfr -> cond_ex en wh wh0 twh ->
  opt_rel (groupby_ex en) gb tgb -> cond_ex en hv hv0 thv ->
  Forall2 (named_window_ex en) ws tws -> distinct_names (map fst ws) = true ->
  made (NSelect l fr wh gb hv d ws no_qattrs) ->
  Core en (NSelect l fr wh gb hv d ws no_qattrs) (select_text d tl tfr twh tgb thv tws).
Proof.
  intros Hl N [Hf Df] [Hw Dw] Hg [Hh Dh] Hws D T. constructor; [reflexivity|].
  intros n rest Hn R. unfold select_text in *. cbn [length] in Hn.
  repeat (rewrite !app_length in Hn; cbn [length] in Hn).
  pose proof (rank_windows en ws tws rest Hws ltac:(lia)) as R5.
  pose proof (rank_having thv _ R5) as R4. pose proof (rank_group tgb _ R4) as R3.
  pose proof (rank_where twh _ R3) as R2.
  assert (R1 : 1 <= rank (from_text tfr ++ expr_clause "WHERE" twh ++ group_clause tgb
                          ++ expr_clause "HAVING" thv ++ windows_text tws ++ rest)).
  { unfold from_text. destruct tfr; cbn [expr_clause app]; [cbn; lia | lia]. }
  cbn [app]. rewrite <- !app_assoc.
  unfold p_query_primary. cbn [K String.eqb Ascii.eqb Bool.eqb]. unfold p_select.
  set (body := commas tl ++ from_text tfr ++ expr_clause "WHERE" twh ++ group_clause tgb
               ++ expr_clause "HAVING" thv ++ windows_text tws ++ rest).
  assert (p_quant ((if d then [K "DISTINCT"] else []) ++ body)
          = ((if d then Some "DISTINCT" else None), body)) as ->.
  { destruct d; [reflexivity|]. cbn [app]. unfold body. now apply (items_quant en l). }
  unfold body. rewrite (items_ok en n l tl); auto; [|lia]. cbn [bind].
  rewrite (from_ok en n fr0 tfr); auto; [|lia]. cbn [bind].
  rewrite (expr_clause_ok en n "WHERE" 2 wh0 twh); auto; [| cbn; tauto | lia]. cbn [bind].
  rewrite (group_clause_ok en n gb tgb); auto; [|lia]. cbn [bind].
  rewrite (expr_clause_ok en n "HAVING" 4 hv0 thv); auto; [| cbn; tauto | lia]. cbn [bind].
  pose proof (windows_ok en n ws tws rest Hws ltac:(lia) R) as W.
  match type of W with (let* (_, _) := ?x in _) = _ => destruct x as [[wv r]|] end; [|discriminate W].
  cbn [bind] in W |- *. injection W as -> ->. f_equal. f_equal.
  unfold v_select. cbn [bind].
  assert (exists ts, each (fun x => tyof (check x)) l = Ok ts) as [ts E].
  { destruct T as [t T]. cbn [check] in T. destruct (each _ l) as [ts|] in T |- *; [eauto | discriminate T]. }
  assert (made (NSelect l None None None None false [] no_qattrs)) as T0.
  { exists (Some (select_type ts)). cbn [check]. rewrite E. destruct l; [congruence | reflexivity]. }
  rewrite (made_mk _ T0). cbn [bind].
  assert (forall x : option node, seq_opt (match x with Some e => Some (Ok e) | None => None end) = Ok x) as Q
    by (intros [|]; reflexivity).
  rewrite !Q.
  assert (seq_opt (match gb with Some g => Some (Ok g) | None => None end) = Ok gb) as ->
    by (destruct gb; reflexivity).
  assert (seq_opt (match ws with [] => None | _ :: _ => Some (Ok ws) end)
          = Ok (match ws with [] => None | _ => Some ws end)) as -> by (destruct ws; reflexivity).
  assert (match match ws with [] => None | _ :: _ => Some ws end with None => [] | Some l => dict_of l end = ws) as DW.
  { destruct ws as [|w ws']; [reflexivity|]. now apply dict_of_distinct. }
  destruct fr0 as [r|], d; cbn [bind hd_error Nat.ltb Nat.leb v_quant String.eqb Ascii.eqb Bool.eqb];
    rewrite DW, Dw, Dh; rewrite ?Df; try (now rewrite (made_mk _ T)).
  all: change (drop_absent None) with (@None node) in *; subst fr; now rewrite (made_mk _ T).
Qed.
Lemma Core_select en d l tl fr tfr wh twh gb tgb hv thv ws tws :
  Forall2 (Si en) l tl -> l <> [] ->
  opt_rel (fun r ts => exists c, Rl en c r ts) fr tfr -> opt_rel (Exo en) wh twh ->
  opt_rel (groupby_ex en) gb tgb -> opt_rel (Exo en) hv thv ->
  Forall2 (named_window_ex en) ws tws -> distinct_names (map fst ws) = true ->
  made (NSelect l fr wh gb hv d ws no_qattrs) ->
  Core en (NSelect l fr wh gb hv d ws no_qattrs) (select_text d tl tfr twh tgb thv tws).
Proof.
  intros Hl N Hf Hw Hg Hh. eapply Core_select_conds; eauto using Exo_cond, Rl_from.
Qed.
Lemma Core_table en n sc ca :
  made (NTable n sc ca) -> (ca <> None -> sc <> None) ->
  forallb (inner dquote) (drop_none [ca; sc; Some n]) = true ->
  Core en (NTableQuery (NTable n sc ca) no_qattrs) (K "TABLE" :: chain_toks [ca; sc; Some n]).
Proof.
  intros T C I. constructor; [reflexivity|]. intros m rest Hm R. pose proof (rank_end rest ltac:(lia)) as E.
  cbn [app]. unfold p_query_primary. cbn [K String.eqb Ascii.eqb Bool.eqb].
  unfold chain_toks. fold (dots (drop_none [ca; sc; Some n])).
  assert (exists x l, drop_none [ca; sc; Some n] = x :: l) as (x & l & D)
    by (destruct ca, sc; cbn; eauto).
  assert (V : v_table (qidents (x :: l)) = Ok (NTable n sc ca)).
  { unfold v_table. rewrite <- D, visit_qidents by exact I. cbn [bind]. rewrite <- (made_mk _ T).
    destruct ca as [ca|], sc as [sc|]; try reflexivity. exfalso; apply C; congruence. }
  rewrite D, qname_ok by apply E. cbn [bind]. rewrite V. cbn [bind].
  rewrite made_mk; [reflexivity|]. destruct T as [t T]. exists (Some unknown).
  change (check (NTableQuery (NTable n sc ca) no_qattrs)) with
    (let* _ := (let* _ := check (NTable n sc ca) in Ok tt) in
     let* _ := qattrs_ok (fun x => let* _ := check x in Ok tt) (@no_qattrs node) in Ok (Some unknown)).
  rewrite T. reflexivity.
Qed.
Lemma Core_values en l tl :
  Exs en l tl -> l <> [] -> made (NValues l no_qattrs) ->
  Core en (NValues l no_qattrs) (K "VALUES" :: commas tl).
Proof.
  intros H N T. constructor; [reflexivity|]. intros n rest Hn R. pose proof (rank_end rest ltac:(lia)) as E.
  cbn [app length] in *. unfold p_query_primary. cbn [K String.eqb Ascii.eqb Bool.eqb].
  rewrite (exprs_ok _ _ l tl); [| apply E | apply Rx_Rd; apply ex_rxs; auto; lia | exact N | apply E].
  cbn [bind]. now rewrite (made_mk _ T).
Qed.

(** * Queries *)
Lemma count_offset c rest : (match c with None => True | Some z => (0 <= z)%Z end) -> 7 < rank rest ->
  p_offset (count_text "OFFSET" c ++ rest)
  = Ok (match c with None => None | Some z => Some (Ok z) end, rest).
Proof.
  intros H R. pose proof (rank_end rest ltac:(lia)) as E. unfold p_offset. destruct c as [z|]; cbn [count_text app].
  - rewrite eat_kw_same. unfold Ztok. cbn [p_row_count bind]. rewrite (ce_rows _ E), (Z_of_text z H). reflexivity.
  - rewrite (rank_absent rest "OFFSET" 7); [reflexivity | cbn; tauto | exact R].
Qed.
Lemma count_limit c rest : (match c with None => True | Some z => (0 <= z)%Z end) -> 8 < rank rest ->
  p_limit (count_text "LIMIT" c ++ rest)
  = Ok (match c with None => None | Some z => Some (Ok (Some z)) end, rest).
Proof.
  intros H R. pose proof (rank_end rest ltac:(lia)) as E. unfold p_limit. destruct c as [z|]; cbn [count_text app].
  - rewrite eat_kw_same. unfold Ztok. cbn [p_row_count bind]. rewrite (Z_of_text z H). reflexivity.
  - rewrite (rank_absent rest "LIMIT" 8); [| cbn; tauto | exact R]. now rewrite (ce_fetch _ E R).
Qed.

Definition named_ex (en : env) (x : node) (y : string * list token) : Prop :=
  exists q, x = NAliasedRel q (fst y) [] /\ inner dquote (fst y) = true /\ Rq en q (snd y) /\ made x.
Definition named_text (y : string * list token) : list token :=
  qid (fst y) :: K "AS" :: paren (snd y).
Definition with_text (tl : list (string * list token)) : list token :=
  match tl with [] => [] | _ => K "WITH" :: commas (map named_text tl) end.
Lemma named_ok en n x y rest :
  named_ex en x y -> 8 * length (named_text y) <= n ->
  p_named (p_query en n) (named_text y ++ rest) = Ok (Ok x, rest).
Proof.
  destruct y as [a t]. intros (q & -> & I & [F Q] & T) Hn. cbn [fst snd] in *. unfold named_text, paren in *.
  cbn [fst snd length] in *. rewrite app_length in Hn. cbn [length] in Hn. cbn [app].
  unfold p_named. cbn [qid p_ident bind].
  change (p_columns_opt (K "AS" :: TSym "(" :: (t ++ [TSym ")"]) ++ rest))
    with (Ok (@nil pident, K "AS" :: TSym "(" :: (t ++ [TSym ")"]) ++ rest)). cbn [bind].
  rewrite eat_kw_same. cbn [need bind]. unfold p_parenthesised. rewrite eat_sym_same. cbn [need bind].
  rewrite <- app_assoc. cbn [app]. rewrite Q by (reflexivity || lia). cbn [bind]. rewrite eat_sym_same.
  cbn [need bind]. unfold v_named. rewrite (visit_qid a I). cbn [bind v_names each]. now rewrite (made_mk _ T).
Qed.

Definition query_text (tw : list (string * list token)) (core : list token)
           (tob : list (order (list token))) (off lim : option Z) : list token :=
  with_text tw ++ core ++ orders_text tob ++ count_text "OFFSET" off ++ count_text "LIMIT" lim.
(** [q] with other attributes. *)
Definition with_q (a : qattrs node) (q : node) : node :=
  match set_q (fun _ => a) q with Ok x => x | Err _ => q end.
Definition bare (q : node) : Prop :=
  match q with
  | NSelect _ _ _ _ _ _ _ a | NTableQuery _ a | NValues _ a => a = no_qattrs
  | _ => False
  end.
Lemma Rq_query en ws tw core tc ob tob off lim :
  Forall2 (named_ex en) ws tw -> Core en core tc -> bare core ->
  Forall2 (order_rel (Exo en)) ob tob ->
  match off with None => True | Some z => (0 <= z)%Z end ->
  match lim with None => True | Some z => (0 <= z)%Z end ->
  Rq en (with_q (mkQ ws ob off lim) core) (query_text tw tc tob off lim).
Proof.
  intros Hw [CF C] B Ho Hoff Hlim. constructor.
  { unfold query_text. destruct tw; [|reflexivity]. cbn [with_text app].
    destruct tc as [|[k| | | | | | | | | | |s|c] tc]; try contradiction. cbn [app starts_query].
    unfold query_kw, mem in *. cbn [existsb] in *. rewrite !orb_true_iff in *. tauto. }
  intros n rest Hn R. apply rank_qend in R.
  pose proof (rank_limit lim rest ltac:(lia)) as R8. pose proof (rank_offset off _ R8) as R7.
  pose proof (rank_orders tob _ R7) as R6.
  unfold query_text in *. repeat (rewrite !app_length in Hn; cbn [length] in Hn). rewrite <- !app_assoc.
  set (tail := orders_text tob ++ count_text "OFFSET" off ++ count_text "LIMIT" lim ++ rest) in *.
  assert (1 <= length tc) as Ltc by (destruct tc; [contradiction | cbn; lia]).
  destruct n as [|[|[|n]]]; try lia.
  assert (P : p_query_no_with en (S (S n)) (tc ++ tail) = Ok (Ok (with_q (mkQ [] ob off lim) core), rest)).
  { change (p_query_no_with en (S (S n)) (tc ++ tail))
      with (qnw_body (p_term en (S n) 0) (p_bool en (S n) 0) (tc ++ tail)).
    unfold qnw_body.
    change (p_term en (S n) 0 (tc ++ tail)) with
      (term_body (p_term en n) (p_query_primary (p_bool en n 0) (p_primary en n) (p_relation en n)
                              (p_query_no_with en n)) 0 (tc ++ tail)).
    unfold term_body. rewrite C by lia. cbn [bind].
    assert (term_loop (p_term en n) (S (length tail)) 0 (Ok core) tail = Ok (Ok core, tail)) as ->.
    { cbn [term_loop]. pose proof (ce_set _ (rank_end tail ltac:(lia))) as CS.
      assert (RT : rank tail < 10).
      { clear -R. subst tail. unfold orders_text.
        destruct tob; cbn [orders_toks app]; [|cbn; lia].
        destruct off; cbn [count_text app]; [cbn; lia|]. destruct lim; cbn [count_text app]; [cbn; lia|lia]. }
      destruct tail as [|[k t| | | | | | | | | | |s|c] r]; try reflexivity. now rewrite (CS t k r eq_refl RT). }
    cbn [bind]. unfold tail.
    assert (OE : orders_end (count_text "OFFSET" off ++ count_text "LIMIT" lim ++ rest)).
    { assert (clause_end (count_text "OFFSET" off ++ count_text "LIMIT" lim ++ rest)) as E by (apply rank_end; lia).
      split; [apply E|]. split; [apply E|]. apply (rank_absent _ _ 6); [cbn; tauto | lia]. }
    rewrite (p_orderby_ok (p_bool en (S n) 0) ob tob); [| apply orders_Rd; auto; lia | exact OE]. cbn [bind].
    rewrite count_offset by (auto; lia). cbn [bind]. rewrite count_limit by (auto; lia). cbn [bind].
    f_equal. f_equal. unfold v_query_no_with. cbn [bind].
    destruct core; try contradiction; cbn [bare] in B; subst qa; unfold with_q, no_qattrs;
      destruct ob, off, lim; reflexivity. }
  change (p_query en (S (S (S n))) (with_text tw ++ tc ++ tail))
    with (query_body (p_query_no_with en (S (S n))) (p_query en (S (S n))) (with_text tw ++ tc ++ tail)).
  unfold query_body. destruct Hw as [|x y ws tw Hx Hw].
  - cbn [with_text app].
    assert (eat_kw "WITH" (tc ++ tail) = None) as ->.
    { destruct tc as [|[k| | | | | | | | | | |s|c] tc']; try contradiction. cbn [app eat_kw].
      destruct (String.eqb_spec k "WITH") as [->|]; [discriminate CF | reflexivity]. }
    rewrite P. reflexivity.
  - cbn [with_text] in *. cbn [length] in Hn. cbn [app]. rewrite eat_kw_same.
    assert (W : sep (p_named (p_query en (S (S n)))) (commas (map named_text (y :: tw)) ++ tc ++ tail)
                = Ok (Ok (x :: ws), tc ++ tail)).
    { apply sep_ok; [| discriminate |].
      - assert (Bd : forall t, In t (y :: tw) -> length (named_text t) <= length (commas (map named_text (y :: tw)))).
        { intros t I. apply commas_length_in. now apply in_map. }
        revert Bd Hn. generalize (length (commas (map named_text (y :: tw)))). intros b Bd Hn.
        pose proof (Forall2_cons _ _ Hx Hw) as G. revert G Bd. generalize (x :: ws) (y :: tw).
        intros l1 tl1 G Bd. induction G as [|x1 y1 l1 tl1 E1 F1 IH]; [constructor|]. cbn [map].
        constructor; [|apply IH; intros; apply Bd; now right].
        intros r _. apply named_ok; [exact E1|]. specialize (Bd y1 (or_introl eq_refl)). lia.
      - destruct tc as [|[k| | | | | | | | | | |s|c] tc']; try contradiction. reflexivity. }
    assert (eat_kw "RECURSIVE" (commas (map named_text (y :: tw)) ++ tc ++ tail) = None) as ->.
    { cbn [map]. destruct (commas_first (named_text y) (map named_text tw) (tc ++ tail)) as (k & -> & _).
      reflexivity. }
    rewrite W. cbn [bind]. rewrite P. cbn [bind]. unfold v_query. cbn [bind py_assert negb].
    destruct core; try contradiction; reflexivity.
Qed.
