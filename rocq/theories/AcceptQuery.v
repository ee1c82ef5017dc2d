(** Everything that is accepted has a reading by the rules of Accepts.v (for C63):
    queries and relations, and the induction over all rules of the grammar. *)
From Coq Require Import String Ascii List Bool Arith NArith ZArith Lia.
From Verif Require Import PyStr StrFacts Types Inference Lexer TypeParser Functions Ast Sql Walk Parser Tokens NodeFacts
  ParseMore ParseMoreQ Typing PropertiesRules Grammar Accepts AcceptFacts AcceptExpr AcceptCalls AcceptPrim.
Import ListNotations.
Open Scope nat_scope.
Open Scope string_scope.
Open Scope list_scope.

Notation relation en c := (fun e ts => means en (FRel c e) ts).
Notation term en c := (fun e ts => means en (FTerm c e) ts).
Notation body en := (fun e ts => means en (FBody e) ts).
Notation item en := (fun e ts => means en (FItem e) ts).

(** * Names that may be absent *)
Definition alias_is (o : option pident) (p : list token) : Prop :=
  match o with None => p = [] | Some i => val as_name (visit_ident i) p end.
Lemma p_alias_eats : takes alias_is p_alias.
Proof.
  intro ts. unfold p_alias. eat.
  - rd. cbn [alias_is]. rewrite app_nil_r. intros n N. match goal with H : ident_is _ _ |- _ => destruct H as [I _]; apply I in N end. now constructor.
  - destruct (clause_ahead ts); [now apply eats_ok|]. destruct (p_ident ts) as [[i r]|] eqn:P; [|now apply eats_ok].
    apply p_ident_eats in P as (p & -> & [I _]). intros a b H. injection H as <- <-. exists p. split; [reflexivity|].
    cbn [alias_is]. intros n N. apply I in N. now constructor.
Qed.
#[global] Hint Resolve p_alias_eats : ac.
Lemma p_columns_eats : takes (fun l p => exists q, p = paren q /\ val name_list (v_names l) q) p_columns.
Proof. intro ts. unfold p_columns. rd. eexists. split; [reflexivity|assumption]. Qed.
#[global] Hint Resolve p_columns_eats : ac.
Lemma p_columns_opt_eats : takes (fun l p => val cols (v_names l) p) p_columns_opt.
Proof.
  intro ts. unfold p_columns_opt. destruct (eat_sym "(" ts).
  - eapply eats_weaken; [apply p_columns_eats|]. cbn beta. intros l' p (q & -> & N) ns H. apply N in H. now constructor.
  - apply eats_ok. intros ns H. injection H as <-. constructor.
Qed.
#[global] Hint Resolve p_columns_opt_eats : ac.

(** * Select items *)
Lemma v_select_all_is b x : (let* x := Ok b in
  match x with
  | NField n _ _ => mk (NStar (TRStr n) unknown)
  | NNone => mk (NStar TRNone unknown)
  | _ => mk (NStar (TRVal x) unknown)
  end) = Ok x -> x = NStar (starred b) unknown /\ buildable x.
Proof. cbn [bind]. intro H. destruct b; cbn [starred]; apply mk_has in H as [-> M]; auto. Qed.
Lemma p_select_item_eats en pe pp : takes (val (expr en 1)) pe -> takes (val (expr en 10)) pp ->
  takes (val (item en)) (p_select_item pe pp).
Proof.
  intros E P ts. unfold p_select_item. eat; [rd; vals; apply m_item_star|].
  assert (W : eats (val (item en)) ts (let* (b, r) := pp ts in
      let* r1 := need (eat_sym "." r) in
      let* r2 := need (eat_sym "*" r1) in
      match eat_kw "AS" r2 with
      | Some r3 => let* (l, r4) := p_columns r3 in Ok (v_select_all b (Some l), r4)
      | None => Ok (v_select_all b None, r2)
      end)).
  { rd; unfold v_select_all; intros e Hx; apply bind_inv in Hx as (b & B & Hx); apply bind_inv in Hx as (st & St & Hx);
    match goal with H : val (expr en 10) _ _ |- _ => apply H in B end; apply (v_select_all_is b) in St as [-> M].
    - match goal with H : exists q, _ |- _ => destruct H as (q & -> & N) end.
      apply bind_inv in Hx as (ns & Ns & Hx). apply N in Ns. made. eapply means_eq; [apply (m_item_all_names en b pre x ns q); assumption|toks].
    - injection Hx as <-. eapply means_eq; [apply (m_item_all en b pre); assumption|toks]. }
  intros v r H. apply bind_inv in H as ([a q] & A & H). destruct (eat_sym "." q); [now apply W in H|]. clear W.
  apply E in A as (p & -> & A). apply bind_inv in H as ([i q1] & I & H). injection H as <- <-.
  apply p_alias_eats in I as (pa & -> & I). exists (p ++ pa). split; [toks|]. intros e Ee. unfold v_select_single in Ee.
  apply bind_inv in Ee as (x & X & Ee). apply A in X. destruct i as [i|]; cbn [alias_is] in I.
  - apply bind_inv in Ee as (n & N & Ee). apply I in N. made. now apply m_item_alias.
  - subst pa. injection Ee as <-. rewrite app_nil_r. now apply m_item.
Qed.
Lemma many_items en l p : many (item en) l p -> means en (FMany (map FItem l)) p.
Proof. apply (many_form en FItem). Qed.

(** * Grouping *)
Lemma p_exprs_opt_eats en pe : takes (val (expr en 1)) pe ->
  takes (val (fun l p => (l = [] /\ p = []) \/ means en (FExprs l) p)) (p_exprs_opt pe).
Proof.
  intros E ts. unfold p_exprs_opt. destruct (eat_sym ")" ts).
  - apply eats_ok. apply val_ok. auto.
  - eapply eats_weaken; [apply sep_eats, E|]. cbn beta. intros v p H x X. apply H in X. right. now apply many_exprs.
Qed.
#[global] Hint Resolve p_exprs_opt_eats : ac.
Lemma p_gset_eats en pe : takes (val (expr en 1)) pe -> takes (val (fun l p => means en (FSet l) p)) (p_gset pe).
Proof.
  intros E ts. unfold p_gset.
  assert (D : eats (val (fun l p => means en (FSet l) p)) ts (let* (e, r) := pe ts in Ok ((let* x := e in Ok [x]), r))).
  { rd. vals. rewrite app_nil_r. match goal with H : Ok _ = Ok _ |- _ => injection H as <- | _ => idtac end. now apply m_set_one. }
  destruct (eat_sym "(" ts) as [r|] eqn:O; [|exact D]. apply eats_orelse; [|exact D].
  apply eat_sym_some in O as ->. apply eats_cons. rd. intros l0 L. get.
  match goal with H : _ \/ _ |- _ => destruct H as [[-> ->]|] end; [apply m_set_none|now apply m_set].
Qed.
#[global] Hint Resolve p_gset_eats : ac.
Lemma p_parenthesised_eats {A} (Q : A -> list token -> Prop) p : takes Q p -> takes (fun a ts => exists q, ts = paren q /\ Q a q) (p_parenthesised p).
Proof. intros H ts. unfold p_parenthesised. rd. eexists. split; [reflexivity|assumption]. Qed.
#[global] Hint Resolve p_parenthesised_eats : ac.
Lemma v_group_is {A} (f : A -> group node) x g : v_group f x = Ok g -> exists l, x = Ok l /\ g = f l /\ exists u, group_ok valid g = Ok u.
Proof. unfold v_group. intros (l & -> & H)%bind_inv. apply bind_inv in H as (u & U & H). injection H as <-. eauto 6. Qed.
Lemma many_sets en l p : many (fun l p => means en (FSet l) p) l p -> means en (FMany (map FSet l)) p.
Proof. induction 1; cbn [map]; [now apply m_one|now apply m_more]. Qed.
Lemma many_groups en l p : many (fun l p => means en (FGroup l) p) l p -> means en (FMany (map FGroup l)) p.
Proof. induction 1; cbn [map]; [now apply m_one|now apply m_more]. Qed.
Lemma p_group_eats en pe : takes (val (expr en 1)) pe -> takes (val (fun g p => means en (FGroup g) p)) (p_group pe).
Proof.
  intros E ts. unfold p_group.
  assert (D : eats (val (fun g p => means en (FGroup g) p)) ts (let* (l, r) := p_gset pe ts in Ok (v_group (@GSet node) l, r))).
  { rd. intros g G. apply v_group_is in G as (l & -> & -> & u & U). get. rewrite app_nil_r. now apply m_group_set. }
  destruct ts as [|t ts]; [exact D|]. destruct t; try exact D.
  destruct (String.eqb_spec k "ROLLUP") as [->|_].
  { clear D. apply eats_cons. rd. intros g G. apply v_group_is in G as (l & -> & -> & u & U).
    match goal with H : exists q, _ |- _ => destruct H as (q & -> & H') end. get. rewrite app_nil_r.
    destruct H' as [[-> ->]|]; [discriminate U|now apply m_rollup]. }
  destruct (String.eqb_spec k "CUBE") as [->|_].
  { clear D. apply eats_cons. rd. intros g G. apply v_group_is in G as (l & -> & -> & u & U).
    match goal with H : exists q, _ |- _ => destruct H as (q & -> & H') end. get. rewrite app_nil_r.
    destruct H' as [[-> ->]|]; [discriminate U|now apply m_cube]. }
  destruct (String.eqb_spec k "GROUPING") as [->|_]; [|exact D].
  destruct (eat_kw "SETS" ts) as [r1|] eqn:K; [|exact D]. clear D. apply eat_kw_some in K as [y ->].
  do 2 apply eats_cons. rd. intros g G. apply v_group_is in G as (l & -> & -> & u & U).
  match goal with H : exists q, _ |- _ => destruct H as (q & -> & H') end. get. rewrite app_nil_r.
  apply many_sets in H'. now apply m_sets.
Qed.
#[global] Hint Resolve p_group_eats : ac.
Lemma p_group_quant_is ts q r : p_group_quant ts = (q, r) ->
  exists p, ts = p ++ r /\ (q = None /\ p = [] \/ exists k x, In k ["DISTINCT"; "ALL"] /\ q = Some x /\ p = [TKw k x]).
Proof.
  unfold p_group_quant. intro H. destruct ts as [|[] [|[] ts]]; try now apply p_quant_is in H.
  destruct (String.eqb k "ALL" && mem k0 ["ROLLUP"; "CUBE"])%bool eqn:B; [|now apply p_quant_is in H].
  apply andb_true_iff in B as [->%String.eqb_eq _]. injection H as <- <-. eexists [_]. split; [reflexivity|].
  right. exists "ALL", txt. repeat apply conj; auto. cbn [In]. auto.
Qed.
Lemma p_groupby_eats en pe x y : takes (val (expr en 1)) pe ->
  takes (val (fun g p => means en (FGroupBy (Some g)) (TKw "GROUP" x :: TKw "BY" y :: p))) (p_groupby pe).
Proof.
  intros E ts. unfold p_groupby. destruct (p_group_quant ts) as [q r] eqn:Q. apply p_group_quant_is in Q as (p & -> & Q).
  intros a b H. apply bind_inv in H as ([l r1] & L & H). injection H as <- <-.
  apply (sep_eats _ _ (p_group_eats en pe E)) in L as (pl & -> & L). exists (p ++ pl). split; [toks|].
  unfold v_groupby. intros g G. apply bind_inv in G as (gs & Gs & G). apply bind_inv in G as (d & D & G).
  apply bind_inv in G as (u & _ & G). injection G as <-. apply L in Gs. apply many_groups in Gs.
  apply m_groupby; [|exact Gs]. eapply quant_of; eassumption.
Qed.

(** * Clauses *)
Definition clause_is {A} (k : string) (Q : A -> list token -> Prop) (o : option A) (p : list token) : Prop :=
  match o with None => p = [] | Some a => exists x q, p = TKw k x :: q /\ Q a q end.
Lemma p_clause_eats {A} (Q : A -> list token -> Prop) k p : takes Q p -> takes (clause_is k Q) (p_clause k p).
Proof.
  intros H ts. unfold p_clause. eat; [|now apply eats_ok]. rd. cbn [clause_is]. rewrite app_nil_r. eauto.
Qed.
#[global] Hint Resolve p_clause_eats : ac.
Lemma p_windef_eats en pe : takes (val (expr en 1)) pe -> takes (val (fun d p => means en (FWindef d) p)) (p_windef pe).
Proof.
  intros E ts. unfold p_windef. rd. intros d H. apply bind_inv in H as (n & N & H). apply bind_inv in H as (w & W & H). injection H as <-.
  match goal with H : ident_is _ _ |- _ => destruct H as [I _]; apply I in N end.
  match goal with H : exists q, _ |- _ => destruct H as (q & -> & H') end. apply H' in W.
  eapply means_eq; [apply (m_windef en n pre x w q); assumption|toks].
Qed.
#[global] Hint Resolve p_windef_eats : ac.
Lemma many_windefs en l p : many (fun d p => means en (FWindef d) p) l p -> means en (FMany (map FWindef l)) p.
Proof. induction 1; cbn [map]; [now apply m_one|now apply m_more]. Qed.
Lemma p_from_eats en prel : takes (val (relation en 0)) prel -> forall k,
  takes (fun ln p => 1 <= snd ln /\ (snd ln = 1 -> val (fun l p => exists r, l = [r] /\ means en (FRel 0 r) p) (fst ln) p)) (p_from prel k).
Proof.
  intros R. induction k as [|k IH]; intro ts; [apply eats_err|]. cbn [p_from].
  intros a b H. apply bind_inv in H as ([v r] & V & H). apply R in V as (p & -> & V).
  destruct (eat_sym "," r) as [r1|] eqn:C.
  - apply eat_sym_some in C as ->. apply bind_inv in H as ([[l n] r2] & L & H). injection H as <- <-.
    apply IH in L as (q & -> & N & _). cbn [fst snd] in *. exists (p ++ TSym "," :: q). split; [toks|]. split; [lia|]. intros ->%Nat.succ_inj. lia.
  - injection H as <- <-. exists p. split; [reflexivity|]. cbn [fst snd]. split; [lia|]. intros _ l L.
    apply bind_inv in L as (x & X & L). injection L as <-. apply V in X. eauto.
Qed.
Lemma kept_drop x : drop_absent (Some x) = kept x.
Proof. destruct x; reflexivity. Qed.
Lemma clause_means en k o p w : clause_is k (val (expr en 1)) o p -> seq_opt o = Ok w -> means en (FClause k 1 (drop_absent w)) p.
Proof.
  destruct o as [v|]; cbn [clause_is seq_opt].
  - intros (x & q & -> & H) (e & E & G)%bind_inv. injection G as <-. apply H in E. rewrite kept_drop. now apply m_clause.
  - intros -> G. injection G as <-. constructor.
Qed.
Lemma p_select_eats en pe pp prel x : takes (val (expr en 1)) pe -> takes (val (expr en 10)) pp -> takes (val (relation en 0)) prel ->
  takes (val (fun e p => means en (FTerm 3 e) (TKw "SELECT" x :: p))) (p_select pe pp prel).
Proof.
  intros E P R ts. unfold p_select. destruct (p_quant ts) as [q r] eqn:Q. apply p_quant_is in Q as (tq & -> & Q).
  intros a b H. apply bind_inv in H as ([l r1] & L & H). apply (sep_eats _ _ (p_select_item_eats en pe pp E P)) in L as (tl & -> & L).
  apply bind_inv in H as ([fr r2] & F & H).
  apply (p_clause_eats _ "FROM" _ (fun ts => p_from_eats en prel R (S (length ts)) ts)) in F as (tf & -> & F).
  apply bind_inv in H as ([wh r3] & W & H). apply (p_clause_eats _ "WHERE" _ E) in W as (tw & -> & W).
  apply bind_inv in H as ([gb r4] & G & H).
  assert (GE : takes (val (fun g p => exists y q, p = TKw "BY" y :: q /\ forall x, means en (FGroupBy (Some g)) (TKw "GROUP" x :: TKw "BY" y :: q)))
    (after_by (p_groupby pe))).
  { intro us. unfold after_by. eat; [|apply eats_err]. intros a0 b0 H0.
    apply (p_groupby_eats en pe x x0 E) in H0 as (p0 & -> & H0).
    exists p0. split; [reflexivity|]. intros g Hg. exists x0, p0. split; [reflexivity|]. apply H0 in Hg. intro z. inversion Hg; now constructor. }
  apply (p_clause_eats _ "GROUP" _ GE) in G as (tg & -> & G).
  apply bind_inv in H as ([hv r5] & V & H). apply (p_clause_eats _ "HAVING" _ E) in V as (tv & -> & V).
  apply bind_inv in H as ([ws r6] & D & H). injection H as <- <-.
  assert (DD : exists tw', r5 = tw' ++ r6 /\ clause_is "WINDOW" (val (many (fun d p => means en (FWindef d) p))) ws tw').
  { destruct (clause_ahead r5).
    - apply (p_clause_eats _ "WINDOW" _ (sep_eats _ _ (p_windef_eats en pe E))) in D as (tw' & -> & D). eauto.
    - injection D as <- <-. exists []. split; reflexivity. }
  clear D. destruct DD as (td & -> & D).
  exists (tq ++ tl ++ tf ++ tw ++ tg ++ tv ++ td). split; [toks|].
  intros e Ee. unfold v_select in Ee. apply bind_inv in Ee as (items & It & Ee). apply L in It. apply many_items in It.
  apply bind_inv in Ee as (u & _ & Ee). apply bind_inv in Ee as (f & Fr & Ee). apply bind_inv in Ee as (d & Dq & Ee).
  apply bind_inv in Ee as (w & Wh & Ee). apply bind_inv in Ee as (h & Hv & Ee). apply bind_inv in Ee as (g & Gb & Ee).
  apply bind_inv in Ee as (ww & Ws & Ee). apply mk_has in Ee as [-> M].
  apply m_select; auto.
  - eapply quant_of; eassumption.
  - destruct fr as [[lr n]|]; cbn [clause_is] in F.
    + destruct F as (z & q0 & -> & N & F). cbn [fst snd] in *.
      destruct (Nat.ltb_spec 1 n) as [X|X]; [discriminate|]. apply bind_inv in Fr as (l0 & L0 & Fr). injection Fr as <-.
      assert (n = 1) as -> by lia. apply (F eq_refl) in L0 as (r0 & -> & Rr). cbn [hd_error]. rewrite kept_drop. now apply m_from.
    + subst tf. injection Fr as <-. constructor.
  - eapply clause_means; eassumption.
  - destruct gb as [gv|]; cbn [clause_is] in G; cbn [seq_opt] in Gb.
    + destruct G as (z & q0 & -> & G). apply bind_inv in Gb as (g0 & G0 & Gb). injection Gb as <-. apply G in G0 as (y & q1 & -> & G0). apply G0.
    + subst tg. injection Gb as <-. constructor.
  - eapply clause_means; eassumption.
  - destruct ws as [wv|]; cbn [clause_is] in D; cbn [seq_opt] in Ws.
    + destruct D as (z & q0 & -> & D). apply bind_inv in Ws as (w0 & W0 & Ws). injection Ws as <-. apply D in W0. apply many_windefs in W0. now apply m_windows.
    + subst td. injection Ws as <-. constructor.
Qed.

(** * Tables *)
Lemma table_is l t : table_from_qualifiers l = Ok t -> table_of l t.
Proof.
  unfold table_from_qualifiers. intro H. destruct (rev l) as [|n r] eqn:R; [discriminate|].
  assert (L : l = rev r ++ [n]) by (rewrite <- (rev_involutive l), R; reflexivity). apply mk_has in H as [-> M]. subst l. clear R.
  destruct r as [|s [|c r]]; cbn [rev nth_error app].
  - constructor.
  - constructor.
  - rewrite <- !app_assoc. cbn [app]. apply table_three. destruct M as [t M]. inversion M. subst.
    match goal with H : truthy _ = true -> _ |- _ => intros C0 ->; destruct c as [|? c]; [now elim C0|]; specialize (H eq_refl); discriminate end.
Qed.
Lemma v_table_is l p t : val path (v_names l) p -> v_table l = Ok t -> exists ns, path ns p /\ table_of ns t.
Proof. intros V (ns & N & H)%bind_inv. apply V in N. apply table_is in H. eauto. Qed.

(** * Combined queries *)
Lemma p_query_primary_eats en pe pp prel pqn : takes (val (expr en 1)) pe -> takes (val (expr en 10)) pp ->
  takes (val (relation en 0)) prel -> takes (val (body en)) pqn -> takes (val (term en 3)) (p_query_primary pe pp prel pqn).
Proof.
  intros E P R Q ts. unfold p_query_primary. destruct ts as [|t ts]; [apply eats_err|]. destruct t; try apply eats_err.
  - destruct (String.eqb_spec k "SELECT") as [->|_]; [apply eats_cons; now apply p_select_eats|].
    destruct (String.eqb_spec k "TABLE") as [->|_].
    { apply eats_cons. rd. intros e H. apply bind_inv in H as (t & T & H).
      match goal with H : val path _ _ |- _ => apply (v_table_is _ _ _ H) in T as (ns & N & T) end.
      made. rewrite app_nil_r. eapply m_table_query; eassumption. }
    destruct (String.eqb_spec k "VALUES") as [->|_]; [|apply eats_err].
    apply eats_cons. rd. vals. match goal with H : many _ _ _ |- _ => apply many_exprs in H end. rewrite app_nil_r. now apply m_values.
  - destruct (String.eqb_spec s "(") as [->|_]; [|apply eats_err]. apply eats_cons. rd. intros e H. apply bind_inv in H as (q & Hq & H). injection H as <-.
    get. eapply m_hidden; eassumption.
Qed.
Lemma set_kw_is k p op : set_kw k = Some (p, op) -> k = op_text op /\ p = op_tight op.
Proof.
  unfold set_kw. intro H.
  repeat match goal with H : (if String.eqb ?a ?b then _ else _) = _ |- _ => destruct (String.eqb_spec a b) as [->|_] end;
    try discriminate; injection H as <- <-; auto.
Qed.
Lemma p_set_quant_is ts q r : p_set_quant ts = (q, r) ->
  exists p, ts = p ++ r /\ (q = None /\ p = [] \/ exists k x, In k ["DISTINCT"; "ALL"] /\ q = Some x /\ p = [TKw k x]).
Proof.
  unfold p_set_quant. intro H. destruct ts as [|[] ts]; try (injection H as <- <-; exists []; auto; fail).
  destruct (mem k ["DISTINCT"; "ALL"]) eqn:M; injection H as <- <-; [|exists []; auto].
  eexists [_]. split; [reflexivity|]. right. exists k, txt. repeat apply conj; auto. now apply in_mem.
Qed.
Definition tstops (l : nat) (ts : list token) : Prop :=
  match ts with TKw k _ :: _ => match set_kw k with Some (p, _) => p < l | None => True end | _ => True end.
Lemma term_loop_stops pt k : forall lvl acc ts v r, term_loop pt k lvl acc ts = Ok (v, r) -> tstops lvl r.
Proof.
  induction k as [|k IH]; intros lvl acc ts v r H; [discriminate|]. cbn [term_loop] in H.
  destruct ts as [|t ts]; [injection H as <- <-; exact Logic.I|]. destruct t; try (injection H as <- <-; exact Logic.I).
  destruct (set_kw k0) as [[p op]|] eqn:W.
  - destruct (Nat.leb_spec lvl p) as [L|L].
    + destruct (p_set_quant ts) as [q r1]. apply bind_inv in H as ([b q1] & _ & H). now apply IH in H.
    + injection H as <- <-. unfold tstops. now rewrite W.
  - injection H as <- <-. unfold tstops. now rewrite W.
Qed.
Lemma term_body_stops pt pp lvl ts v r : term_body pt pp lvl ts = Ok (v, r) -> tstops lvl r.
Proof. unfold term_body. intros ([a q] & _ & H)%bind_inv. now apply term_loop_stops in H. Qed.
Lemma term_loop_eats en pt : (forall l, l <= 3 -> takes (val (term en l)) (pt l)) ->
  (forall l ts v r, pt l ts = Ok (v, r) -> tstops l r) ->
  forall k lvl c acc ts p, lvl <= c -> val (term en c) acc p -> 3 <= c \/ tstops (S c) ts ->
  eats (val (fun e q => means en (FTerm lvl e) (p ++ q))) ts (term_loop pt k lvl acc ts).
Proof.
  intros P HS. induction k as [|k IH]; intros lvl c acc ts p C A R; [apply eats_err|]. cbn [term_loop].
  assert (D : eats (val (fun e q => means en (FTerm lvl e) (p ++ q))) ts (Ok (acc, ts))).
  { apply eats_ok. vals. rewrite app_nil_r. eapply m_term_tighter; eassumption. }
  destruct ts as [|t ts]; [exact D|]. destruct t; try exact D.
  destruct (set_kw k0) as [[o op]|] eqn:W; [|exact D]. destruct (Nat.leb_spec lvl o) as [LO|LO]; [|exact D].
  assert (CO : o <= c).
  { destruct R as [R|R]; [apply set_kw_is in W as [_ ->]; destruct op; cbn [op_tight]; lia|]. unfold tstops in R. rewrite W in R. lia. }
  apply set_kw_is in W as [-> ->]. assert (O : op_tight op <= 2) by (destruct op; cbn [op_tight]; lia).
  destruct (p_set_quant ts) as [q r1] eqn:Q. apply p_set_quant_is in Q as (tq & -> & Q).
  apply eats_cons. intros a r E. apply bind_inv in E as ([b r2] & E1 & E2). pose proof (HS _ _ _ _ E1) as St.
  apply (P (S (op_tight op)) ltac:(lia)) in E1 as (tb & -> & B).
  apply (IH lvl (op_tight op) _ _ (p ++ TKw (op_text op) txt :: tq ++ tb)) in E2 as (q' & -> & X).
  - exists (tq ++ tb ++ q'). split; [toks|]. intros e Ee. apply X in Ee. eapply means_eq; [exact Ee|toks].
  - exact LO.
  - unfold v_set. intros e Ee. apply bind_inv in Ee as (a1 & A1 & Ee). apply bind_inv in Ee as (b1 & B1 & Ee). apply bind_inv in Ee as (d & Dq & Ee).
    apply A in A1. apply B in B1. made. apply m_set_op; auto; [apply (m_term_tighter en c); assumption|]. eapply quant_of; eassumption.
  - right. exact St.
Qed.
Lemma term_body_eats en pt pp : (forall l, l <= 3 -> takes (val (term en l)) (pt l)) ->
  (forall l ts v r, pt l ts = Ok (v, r) -> tstops l r) -> takes (val (term en 3)) pp ->
  forall lvl, lvl <= 3 -> takes (val (term en lvl)) (term_body pt pp lvl).
Proof.
  intros P HS PP lvl L ts. unfold term_body. eapply eats_bind; [apply PP|]. cbn beta. intros a p r -> A. cbn beta iota.
  apply (term_loop_eats en pt P HS _ lvl 3); auto.
Qed.

(** * Order, offset and limit *)
Lemma p_row_count_eats : takes (val (fun z p => exists s, z = number s /\ p = [TInt s])) p_row_count.
Proof.
  intro ts. unfold p_row_count. destruct ts as [|[] ts]; try apply eats_err.
  - apply eats_cons, eats_ok. apply val_ok. rewrite number_of. eauto.
  - destruct (String.eqb s "?"); [|apply eats_err]. apply eats_cons, eats_ok. apply val_err.
Qed.
Lemma eat_rows_some ts r : eat_rows ts = Some r -> exists p, rows p /\ ts = p ++ r.
Proof.
  unfold eat_rows. destruct (eat_kw "ROW" ts) as [r1|] eqn:R.
  - intro H. injection H as <-. apply eat_kw_some in R as [x ->]. eexists [_]. split; [apply rows_row|reflexivity].
  - intros [x ->]%eat_kw_some. eexists [_]. split; [apply rows_rows|reflexivity].
Qed.
Lemma p_offset_eats : takes (fun o p => forall z, seq_opt o = Ok z -> offset_of z p) p_offset.
Proof.
  intro ts. unfold p_offset. eat.
  - intros a b H. apply bind_inv in H as ([n r1] & N & H). apply p_row_count_eats in N as (p & -> & N). injection H as <- <-.
    destruct (eat_rows r1) as [r2|] eqn:W.
    + apply eat_rows_some in W as (w & W & ->). exists (p ++ w). split; [toks|]. cbn [seq_opt]. intros z Z. apply bind_inv in Z as (y & Y & Z).
      injection Z as <-. apply N in Y as (s & -> & ->). cbn [app]. constructor. now right.
    + exists p. split; [reflexivity|]. cbn [seq_opt]. intros z Z. apply bind_inv in Z as (y & Y & Z).
      injection Z as <-. apply N in Y as (s & -> & ->). constructor. now left.
  - apply eats_ok. intros z Z. injection Z as <-. constructor.
Qed.
#[global] Hint Resolve p_offset_eats : ac.
Lemma p_limit_eats : takes (fun o p => forall z, seq_opt o = Ok z -> limit_of z p) p_limit.
Proof.
  intro ts. unfold p_limit. destruct (eat_kw "LIMIT" ts) as [r|] eqn:L.
  - apply eat_kw_some in L as [x ->]. apply eats_cons.
    assert (D : eats (fun o p => forall z, seq_opt o = Ok z -> limit_of z (TKw "LIMIT" x :: p)) r
      (let* (n, r1) := p_row_count r in Ok (Some (let* z := n in Ok (Some z)), r1))).
    { intros a b H. apply bind_inv in H as ([n r1] & N & H). apply p_row_count_eats in N as (p & -> & N). injection H as <- <-.
      exists p. split; [reflexivity|]. cbn [seq_opt]. intros z Z. apply bind_inv in Z as (y & Y & Z). injection Z as <-.
      apply bind_inv in Y as (y0 & Y0 & Y). injection Y as <-. apply N in Y0 as (s & -> & ->). constructor. }
    destruct r as [|t r]; [exact D|]. destruct t; try exact D.
    destruct (String.eqb_spec k "ALL") as [->|_]; [|apply eats_err].
    apply eats_cons, eats_ok. intros z Z. cbn [seq_opt] in Z. destruct (String.eqb_spec txt "ALL") as [->|_]; [|discriminate].
    injection Z as <-. constructor.
  - clear L. destruct (eat_kw "FETCH" ts) as [r|] eqn:F; [|apply eats_ok; intros z Z; injection Z as <-; constructor].
    apply eat_kw_some in F as [x ->]. intros a b H. apply bind_inv in H as (r1 & R1 & H).
    destruct r as [|[] r]; try discriminate. destruct (mem k ["FIRST"; "NEXT"]) eqn:M; [|discriminate]. injection R1 as ->. apply in_mem in M.
    assert (C : exists c r2, r1 = c ++ r2 /\ (c = [] \/ (exists s, c = [TInt s]) \/ c = [TSym "?"]) /\
      match p_row_count r1 with Ok (_, r2) => r2 | Err _ => r1 end = r2).
    { assert (D : exists c r2, r1 = c ++ r2 /\ (c = [] \/ (exists s, c = [TInt s]) \/ c = [TSym "?"]) /\ r1 = r2) by (exists [], r1; auto).
      unfold p_row_count. destruct r1 as [|[] r1]; try exact D.
      - eexists [_], r1. split; [reflexivity|]. split; [|reflexivity]. right. left. eauto.
      - destruct (String.eqb_spec s "?") as [->|_]; [|exact D]. eexists [_], r1. split; [reflexivity|]. auto. }
    destruct C as (c & r2 & -> & C & ER). rewrite ER in H. clear ER.
    destruct (eat_rows r2) as [r3|] eqn:W; [|discriminate]. cbn [need bind] in H. apply eat_rows_some in W as (w & W & ->).
    destruct (eat_kw "ONLY" r3) as [r4|] eqn:O.
    + apply eat_kw_some in O as [u ->]. injection H as <- <-. exists (TKw "FETCH" x :: TKw k txt :: c ++ w ++ [TKw "ONLY" u]).
      split; [toks|]. intros z Z. injection Z as <-. apply lmt_fetch; auto. left. eauto.
    + destruct (eat_kw "WITH" r3) as [r4|] eqn:O1; [|discriminate]. cbn [need bind] in H. apply eat_kw_some in O1 as [u ->].
      destruct (eat_kw "TIES" r4) as [r5|] eqn:O2; [|discriminate]. cbn [need bind] in H. apply eat_kw_some in O2 as [v ->].
      injection H as <- <-. exists (TKw "FETCH" x :: TKw k txt :: c ++ w ++ [TKw "WITH" u; TKw "TIES" v]).
      split; [toks|]. intros z Z. injection Z as <-. apply lmt_fetch; auto. right. eauto.
Qed.
#[global] Hint Resolve p_limit_eats : ac.
Lemma term_attrs en c q ts : means en (FTerm c q) ts -> q = NNone \/ attrs_of q = Some no_qattrs.
Proof.
  intro H. remember (FTerm c q) as f eqn:F. revert c q F. induction H; intros c0 q0 F; try discriminate; injection F as <- <-; eauto.
Qed.
Lemma set_q_none f q : set_q f NNone = Ok q -> False.
Proof. discriminate. Qed.
Lemma set_q_is f q q' a : set_q f q = Ok q' -> attrs_of q = Some a -> q' = dressed (f a) q.
Proof. intros H A. destruct q; try discriminate; cbn [set_q] in H; injection H as <-; injection A as <-; reflexivity. Qed.
Lemma dressed_twice a b q : dressed a (dressed b q) = dressed a q.
Proof. destruct q; reflexivity. Qed.
Lemma dressed_attrs a q b : attrs_of q = Some b -> attrs_of (dressed a q) = Some a.
Proof. destruct q; try discriminate; reflexivity. Qed.
Lemma dressed_self a q : attrs_of q = Some a -> dressed a q = q.
Proof. destruct q; try discriminate; cbn [attrs_of]; intro H; injection H as ->; reflexivity. Qed.
Lemma qnw_body_eats en pt pe : takes (val (term en 0)) pt -> takes (val (expr en 1)) pe -> takes (val (body en)) (qnw_body pt pe).
Proof.
  intros T E ts. unfold qnw_body. intros a b H.
  apply bind_inv in H as ([q r] & Q & H). apply T in Q as (tq & -> & Q).
  apply bind_inv in H as ([ob r1] & O & H). apply (p_orderby_eats en pe E) in O as (tob & -> & O).
  apply bind_inv in H as ([off r2] & F & H). apply p_offset_eats in F as (tf & -> & F).
  apply bind_inv in H as ([lim r3] & L & H). apply p_limit_eats in L as (tl & -> & L). injection H as <- <-.
  exists (tq ++ tob ++ tf ++ tl). split; [toks|]. intros e Ee. unfold v_query_no_with in Ee.
  apply bind_inv in Ee as (x & X & Ee). apply Q in X.
  assert (W : exists os fs ls, seq_opt ob = Ok os /\ seq_opt off = Ok fs /\ seq_opt lim = Ok ls /\
    (x = NNone -> os = None /\ fs = None /\ ls = None) /\
    e = dressed (mkQ [] (match os with None => [] | Some l => l end) fs (given None ls)) x).
  { destruct (term_attrs _ _ _ _ X) as [->|A].
    - apply bind_inv in Ee as (x1 & E1 & Ee). apply bind_inv in Ee as (x2 & E2 & Ee).
      destruct ob as [v|]; [apply bind_inv in E1 as (? & _ & E1); discriminate|]. injection E1 as <-.
      destruct off as [v|]; [apply bind_inv in E2 as (? & _ & E2); discriminate|]. injection E2 as <-.
      destruct lim as [v|]; [apply bind_inv in Ee as (? & _ & Ee); discriminate|]. injection Ee as <-.
      exists None, None, None. repeat apply conj; try reflexivity. auto.
    - apply bind_inv in Ee as (x1 & E1 & Ee). apply bind_inv in Ee as (x2 & E2 & Ee).
      assert (NN : x <> NNone) by (intros ->; discriminate).
      assert (G1 : exists os, seq_opt ob = Ok os /\ x1 = dressed (mkQ [] (match os with None => [] | Some l => l end) None None) x).
      { destruct ob as [v|]; cbn [seq_opt].
        - apply bind_inv in E1 as (l & -> & E1). apply (set_q_is _ _ _ _ E1) in A as ->. exists (Some l). split; reflexivity.
        - injection E1 as <-. exists None. split; [reflexivity|]. symmetry. now apply dressed_self. }
      destruct G1 as (os & O1 & ->). set (ol := match os with None => [] | Some l => l end) in *.
      assert (G2 : exists fs, seq_opt off = Ok fs /\ x2 = dressed (mkQ [] ol fs None) x).
      { destruct off as [v|]; cbn [seq_opt].
        - apply bind_inv in E2 as (l & -> & E2). exists (Some l). split; [reflexivity|].
          rewrite (set_q_is _ _ _ (mkQ [] ol None None) E2); [apply dressed_twice|]. eapply dressed_attrs; exact A.
        - injection E2 as <-. exists None. split; reflexivity. }
      destruct G2 as (fs & F2 & ->).
      assert (G3 : exists ls, seq_opt lim = Ok ls /\ e = dressed (mkQ [] ol fs (given None ls)) x).
      { destruct lim as [v|]; cbn [seq_opt].
        - apply bind_inv in Ee as (l & -> & Ee). exists (Some l). split; [reflexivity|].
          rewrite (set_q_is _ _ _ (mkQ [] ol fs None) Ee); [apply dressed_twice|]. eapply dressed_attrs; exact A.
        - injection Ee as <-. exists None. split; reflexivity. }
      destruct G3 as (ls & L3 & ->). exists os, fs, ls. repeat apply conj; auto. intros ->. now elim NN. }
  destruct W as (os & fs & ls & Os & Fs & Ls & N & ->). apply F in Fs. apply L in Ls.
  eapply order_means in O; [|exact Os]. apply m_body; auto.
  intros ->. destruct (N eq_refl) as (-> & -> & ->). auto.
Qed.
Lemma p_named_eats en pq : takes (val (query en)) pq -> takes (val (fun e p => means en (FNamed e) p)) (p_named pq).
Proof.
  intros Q ts. unfold p_named. rd. unfold v_named. intros e H.
  match goal with H : ident_is _ _ |- _ => destruct H as [I _] end.
  match goal with H : exists q, _ |- _ => destruct H as (q & -> & H') end.
  apply bind_inv in H as (n & N & H). apply I in N. apply bind_inv in H as (x1 & X & H). apply H' in X.
  apply bind_inv in H as (cs & C & H). match goal with H : val cols _ _ |- _ => apply H in C end. made.
  eapply means_eq; [apply (m_named en n pre cs pre0 x x1 q); assumption|toks].
Qed.
Lemma many_named en l p : many (fun e p => means en (FNamed e) p) l p -> means en (FMany (map FNamed l)) p.
Proof. apply (many_form en FNamed). Qed.
Lemma query_body_eats en pqn pq : takes (val (body en)) pqn -> takes (val (query en)) pq -> takes (val (query en)) (query_body pqn pq).
Proof.
  intros B Q ts. unfold query_body. eat.
  - destruct (match eat_kw "RECURSIVE" l with Some r1 => (true, r1) | None => (false, l) end) as [rc r1] eqn:R.
    intros a b H. apply bind_inv in H as ([ws r2] & W & H). apply (sep_eats _ _ (p_named_eats en pq Q)) in W as (tw & -> & W).
    apply bind_inv in H as ([q r3] & Hq & H). apply B in Hq as (tq & -> & Hq). injection H as <- <-.
    destruct rc.
    { destruct (eat_kw "RECURSIVE" l) as [l1|] eqn:K; [|discriminate]. apply eat_kw_some in K as [y ->]. injection R as ->.
      exists (TKw "RECURSIVE" y :: tw ++ tq). split; [toks|]. intros e H. unfold v_query in H. apply bind_inv in H as (? & _ & H). discriminate. }
    destruct (eat_kw "RECURSIVE" l) as [l1|] eqn:K; [discriminate|]. injection R as ->.
    exists (tw ++ tq). split; [toks|]. intros e H. unfold v_query in H. apply bind_inv in H as (q0 & Q0 & H). apply Hq in Q0.
    cbn [negb py_assert bind] in H. apply bind_inv in H as (l0 & L & H). apply W in L. apply many_named in L.
    destruct (attrs_of q0) as [a|] eqn:A.
    + rewrite (set_q_is _ _ _ _ H A). now apply m_query_with.
    + destruct q0; discriminate.
  - rd. unfold v_query. intros e H. apply bind_inv in H as (q & Hq & H). injection H as <-. get. rewrite app_nil_r. now apply m_query.
Qed.

(** * Relations *)
Lemma p_relation_primary_eats en pe pq prel : takes (val (expr en 1)) pe -> takes (val (query en)) pq -> takes (val (relation en 0)) prel ->
  takes (val (relation en 3)) (p_relation_primary pe pq prel).
Proof.
  intros E Q R ts. unfold p_relation_primary.
  assert (D : eats (val (relation en 3)) ts (let* (l, r) := p_qname ts in Ok (v_table l, r))).
  { rd. intros e T. match goal with H : val path _ _ |- _ => apply (v_table_is _ _ _ H) in T as (ns & N & T) end.
    rewrite app_nil_r. eapply m_table; eassumption. }
  destruct ts as [|t ts]; [exact D|]. destruct t; try exact D.
  - destruct (String.eqb_spec k "UNNEST") as [->|_].
    { clear D. apply eats_cons. rd; intros e Hx; apply bind_inv in Hx as (es & L & Hx);
        match goal with H : exists q, _ |- _ => destruct H as (q & -> & H') end; apply H' in L; apply many_exprs in L; made.
      - eapply means_eq; [apply (m_unnest_with en txt es q x x0); assumption|toks].
      - rewrite app_nil_r. now apply m_unnest. }
    destruct (String.eqb k "LATERAL" && match eat_sym "(" ts with Some _ => true | None => false end)%bool eqn:L.
    { apply andb_true_iff in L as [->%String.eqb_eq _]. clear D. apply eats_cons. rd. intros e H. apply bind_inv in H as (q0 & L & H).
      match goal with H : exists q, _ |- _ => destruct H as (q & -> & H') end. apply H' in L. made. rewrite app_nil_r. now apply m_lateral. }
    destruct (String.eqb k "TABLE" && match eat_sym "(" ts with Some _ => true | None => false end)%bool eqn:T; [|exact D].
    apply andb_true_iff in T as [->%String.eqb_eq _]. clear D. apply eats_cons. rd1; [|apply eats_err].
    eapply eats_weaken; [now apply (p_shapes_eats en)|]. intros v p V e H. apply V in H as (-> & h & q & [<-|[]] & M & ->).
    now apply m_table_function.
  - clear D. destruct (String.eqb_spec s "(") as [->|_]; [|apply eats_err]. apply eats_cons. rd; vals; [now apply m_rel_query|now apply m_rel_paren].
Qed.
Lemma p_aliased_eats en pe pq prel : takes (val (expr en 1)) pe -> takes (val (query en)) pq -> takes (val (relation en 0)) prel ->
  takes (val (relation en 2)) (p_aliased pe pq prel).
Proof.
  intros E Q R ts. unfold p_aliased. intros a b H. apply bind_inv in H as ([x r] & X & H).
  apply (p_relation_primary_eats en pe pq prel E Q R) in X as (p & -> & X).
  apply bind_inv in H as ([i r1] & I & H). apply p_alias_eats in I as (pi & -> & I). destruct i as [i|]; cbn [alias_is] in I.
  - apply bind_inv in H as ([cs r2] & C & H). apply p_columns_opt_eats in C as (pc & -> & C). injection H as <- <-.
    exists (p ++ pi ++ pc). split; [toks|]. unfold v_aliased_rel. intros e Ee. apply bind_inv in Ee as (y & Y & Ee). apply X in Y.
    apply bind_inv in Ee as (n & N & Ee). apply I in N. apply bind_inv in Ee as (l & L & Ee). apply C in L. made. now apply m_rel_alias.
  - subst pi. injection H as <- <-. exists p. split; [reflexivity|]. unfold v_aliased_rel. intros e Ee. apply bind_inv in Ee as (y & Y & Ee).
    injection Ee as <-. apply X in Y. eapply m_rel_tighter; [|exact Y]. lia.
Qed.
Lemma p_sampled_eats en pe pq prel : takes (val (expr en 1)) pe -> takes (val (query en)) pq -> takes (val (relation en 0)) prel ->
  takes (val (relation en 1)) (p_sampled pe pq prel).
Proof.
  intros E Q R ts. unfold p_sampled. intros a b H. apply bind_inv in H as ([x r] & X & H).
  apply (p_aliased_eats en pe pq prel E Q R) in X as (p & -> & X).
  assert (D : Ok (x, r) = Ok (a, b) -> exists pre, p ++ r = pre ++ b /\ val (relation en 1) a pre).
  { intro G. injection G as <- <-. exists p. split; [reflexivity|]. intros e Ee. apply X in Ee. eapply m_rel_tighter; [|exact Ee]. lia. }
  destruct (clause_ahead r) eqn:C; [|now apply D]. destruct (eat_kw "TABLESAMPLE" r) as [r0|] eqn:K; [|now apply D].
  destruct r0 as [|[] r0]; try now apply D. clear D. apply eat_kw_some in K as [y ->].
  assert (M : mem k ["BERNOULLI"; "SYSTEM"] = true) by exact C. clear C. apply in_mem in M.
  apply bind_inv in H as ([v r2] & V & H). apply (p_parenthesised_eats _ _ E) in V as (pv & -> & q & -> & V). injection H as <- <-.
  exists (p ++ TKw "TABLESAMPLE" y :: TKw k txt :: paren q). split; [toks|].
  intros e Ee. apply bind_inv in Ee as (x0 & X0 & Ee). apply X in X0. apply bind_inv in Ee as (st & St & Ee). apply bind_inv in Ee as (z & Z & Ee). apply V in Z. made.
  assert (txt = sample_text st) as ->.
  { unfold v_sample_type in St. destruct (String.eqb_spec txt "BERNOULLI") as [->|_]; [now injection St as <-|].
    destruct (String.eqb_spec txt "SYSTEM") as [->|_]; [now injection St as <-|discriminate]. }
  now apply m_sample.
Qed.
Lemma eat_outer_is ts : exists o, outer_word o /\ ts = o ++ eat_outer ts.
Proof.
  unfold eat_outer. destruct (eat_kw "OUTER" ts) as [r|] eqn:K.
  - apply eat_kw_some in K as [x ->]. eexists [_]. split; [constructor|reflexivity].
  - exists []. split; [constructor|reflexivity].
Qed.
Lemma p_join_type_is ts jt r : p_join_type ts = (jt, r) -> exists p, join_kind jt p /\ ts = p ++ r.
Proof.
  unfold p_join_type. intro H.
  assert (D : (JInner, ts) = (jt, r) -> exists p, join_kind jt p /\ ts = p ++ r).
  { intro G. injection G as <- <-. exists []. split; [constructor|reflexivity]. }
  destruct ts as [|t ts]; [now apply D|]. destruct t; try now apply D.
  destruct (String.eqb_spec k "INNER") as [->|_]; [injection H as <- <-; eexists [_]; split; [constructor|reflexivity]|].
  destruct (eat_outer_is ts) as (o & O & T).
  destruct (String.eqb_spec k "LEFT") as [->|_]; [injection H as <- <-; exists (TKw "LEFT" txt :: o); split; [now constructor|cbn [app]; now rewrite <- T]|].
  destruct (String.eqb_spec k "RIGHT") as [->|_]; [injection H as <- <-; exists (TKw "RIGHT" txt :: o); split; [now constructor|cbn [app]; now rewrite <- T]|].
  destruct (String.eqb_spec k "FULL") as [->|_]; [injection H as <- <-; exists (TKw "FULL" txt :: o); split; [now constructor|cbn [app]; now rewrite <- T]|].
  now apply D.
Qed.
Lemma p_criteria_eats en pe : takes (val (expr en 1)) pe -> takes (val (fun c p => means en (FCriteria c) p)) (p_criteria pe).
Proof.
  intros E ts. unfold p_criteria. rd; intros c H; apply bind_inv in H as (y & Y & H); injection H as <-.
  - get. rewrite app_nil_r. now apply m_on.
  - match goal with H : exists q, _ |- _ => destruct H as (q & -> & H') end. apply H' in Y. rewrite app_nil_r. now apply m_using.
Qed.
Lemma rel_loop_eats en pe ps prel : takes (val (expr en 1)) pe -> takes (val (relation en 1)) ps -> takes (val (relation en 0)) prel ->
  forall k acc ts p, val (relation en 0) acc p ->
  eats (val (fun e q => means en (FRel 0 e) (p ++ q))) ts (rel_loop pe ps prel k acc ts).
Proof.
  intros E S R. induction k as [|k IH]; intros acc ts p A; [apply eats_err|]. cbn [rel_loop].
  assert (D : eats (val (fun e q => means en (FRel 0 e) (p ++ q))) ts (Ok (acc, ts))).
  { apply eats_ok. intros e Ee. rewrite app_nil_r. now apply A. }
  destruct (join_ahead ts); [|exact D]. clear D.
  destruct (eat_kw "CROSS" ts) as [r|] eqn:K1.
  { apply eat_kw_some in K1 as [x ->]. intros a b H. destruct (eat_kw "JOIN" r) as [r1|] eqn:K2; [|discriminate]. cbn [need bind] in H.
    apply eat_kw_some in K2 as [y ->]. apply bind_inv in H as ([v r2] & V & H). apply S in V as (q & -> & V).
    apply (IH _ _ (p ++ TKw "CROSS" x :: TKw "JOIN" y :: q)) in H as (q' & -> & H).
    - exists (TKw "CROSS" x :: TKw "JOIN" y :: q ++ q'). split; [toks|]. intros e Ee. apply H in Ee. eapply means_eq; [exact Ee|toks].
    - unfold v_join. intros e Ee. apply bind_inv in Ee as (a1 & A1 & Ee). apply bind_inv in Ee as (b1 & B1 & Ee). cbn [seq_opt bind] in Ee.
      apply A in A1. apply V in B1. made. now apply m_cross. }
  destruct (eat_kw "NATURAL" ts) as [r|] eqn:K3.
  { apply eat_kw_some in K3 as [x ->]. intros a b H. destruct (p_join_type r) as [jt r0] eqn:J. apply p_join_type_is in J as (tj & J & ->).
    destruct (eat_kw "JOIN" r0) as [r1|] eqn:K2; [|discriminate]. cbn [need bind] in H.
    apply eat_kw_some in K2 as [y ->]. apply bind_inv in H as ([v r2] & V & H). apply S in V as (q & -> & V).
    apply (IH _ _ (p ++ TKw "NATURAL" x :: tj ++ TKw "JOIN" y :: q)) in H as (q' & -> & H).
    - exists (TKw "NATURAL" x :: tj ++ TKw "JOIN" y :: q ++ q'). split; [toks|]. intros e Ee. apply H in Ee. eapply means_eq; [exact Ee|toks].
    - unfold v_join. intros e Ee. apply bind_inv in Ee as (a1 & A1 & Ee). apply bind_inv in Ee as (b1 & B1 & Ee). cbn [seq_opt bind] in Ee.
      apply A in A1. apply V in B1. made. now apply m_natural. }
  intros a b H. destruct (p_join_type ts) as [jt r0] eqn:J. apply p_join_type_is in J as (tj & J & ->).
  destruct (eat_kw "JOIN" r0) as [r1|] eqn:K2; [|discriminate]. cbn [need bind] in H.
  apply eat_kw_some in K2 as [y ->]. apply bind_inv in H as ([v r2] & V & H). apply R in V as (q & -> & V).
  apply bind_inv in H as ([c r3] & C & H). apply (p_criteria_eats en pe E) in C as (tc & -> & C).
  apply (IH _ _ (p ++ tj ++ TKw "JOIN" y :: q ++ tc)) in H as (q' & -> & H).
  - exists (tj ++ TKw "JOIN" y :: q ++ tc ++ q'). split; [toks|]. intros e Ee. apply H in Ee. eapply means_eq; [exact Ee|toks].
  - unfold v_join. intros e Ee. apply bind_inv in Ee as (a1 & A1 & Ee). apply bind_inv in Ee as (b1 & B1 & Ee). cbn [seq_opt] in Ee.
    apply bind_inv in Ee as (c1 & C1 & Ee). apply bind_inv in C1 as (c2 & C2 & C1). injection C1 as <-.
    apply A in A1. apply V in B1. apply C in C2. made. now apply m_join.
Qed.
Lemma relation_body_eats en pe pq prel : takes (val (expr en 1)) pe -> takes (val (query en)) pq -> takes (val (relation en 0)) prel ->
  takes (val (relation en 0)) (relation_body pe pq prel).
Proof.
  intros E Q R ts. unfold relation_body. eapply eats_bind; [now apply p_sampled_eats|]. cbn beta. intros a p r -> A. cbn beta iota.
  apply rel_loop_eats; auto; [now apply p_sampled_eats|]. intros e Ee. apply A in Ee. eapply m_rel_tighter; [|exact Ee]. lia.
Qed.

(** * All rules *)
Definition all_eat (en : env) (n : nat) : Prop :=
  (forall l, l <= 3 -> takes (val (expr en (Nat.max 1 l))) (p_bool en n l)) /\
  (forall l, l <= 4 -> takes (val (expr en (lv l))) (p_value en n l)) /\
  takes (val (expr en 10)) (p_primary en n) /\
  takes (val (query en)) (p_query en n) /\
  takes (val (body en)) (p_query_no_with en n) /\
  (forall l, l <= 3 -> takes (val (term en l)) (p_term en n l)) /\
  takes (val (relation en 0)) (p_relation en n).
Lemma p_bool_stops en n l ts v r : p_bool en n l ts = Ok (v, r) -> bstops l r.
Proof. destruct n as [|n]; [discriminate|]. change (p_bool en (S n) l ts) with (bool_body (p_bool en n) (p_value en n 0) (p_query en n) l ts). apply bool_body_stops. Qed.
Lemma p_value_stops en n l ts v r : p_value en n l ts = Ok (v, r) -> stops l r.
Proof. destruct n as [|n]; [discriminate|]. change (p_value en (S n) l ts) with (value_body (p_value en n) (p_primary en n) l ts). apply value_body_stops. Qed.
Lemma p_term_stops en n l ts v r : p_term en n l ts = Ok (v, r) -> tstops l r.
Proof.
  destruct n as [|n]; [discriminate|].
  change (p_term en (S n) l ts) with (term_body (p_term en n)
             (p_query_primary (p_bool en n 0) (p_primary en n) (p_relation en n) (p_query_no_with en n)) l ts).
  apply term_body_stops.
Qed.
Lemma all_rules en n : all_eat en n.
Proof.
  induction n as [|n (B & V & P & Q & N & T & R)].
  { unfold all_eat. repeat apply conj; intros; apply eats_err. }
  pose proof (B 0 ltac:(lia)) as B0. cbn [Nat.max] in B0.
  pose proof (V 0 ltac:(lia)) as V0. change (lv 0) with 5 in V0.
  pose proof (T 0 ltac:(lia)) as T0.
  unfold all_eat. repeat apply conj.
  - intros l L ts. change (p_bool en (S n) l ts) with (bool_body (p_bool en n) (p_value en n 0) (p_query en n) l ts).
    apply bool_body_eats; auto. apply p_bool_stops.
  - intros l L ts. change (p_value en (S n) l ts) with (value_body (p_value en n) (p_primary en n) l ts).
    apply value_body_eats; auto. apply p_value_stops.
  - intros ts. change (p_primary en (S n) ts) with (prim_body en (p_bool en n 0) (p_value en n 0) (p_query en n) ts).
    now apply prim_body_eats.
  - intros ts. change (p_query en (S n) ts) with (query_body (p_query_no_with en n) (p_query en n) ts). now apply query_body_eats.
  - intros ts. change (p_query_no_with en (S n) ts) with (qnw_body (p_term en n 0) (p_bool en n 0) ts). now apply qnw_body_eats.
  - intros l L ts. change (p_term en (S n) l ts) with (term_body (p_term en n)
             (p_query_primary (p_bool en n 0) (p_primary en n) (p_relation en n) (p_query_no_with en n)) l ts).
    apply term_body_eats; auto; [apply p_term_stops|]. now apply p_query_primary_eats.
  - intros ts. change (p_relation en (S n) ts) with (relation_body (p_bool en n 0) (p_query en n) (p_relation en n) ts). now apply relation_body_eats.
Qed.
