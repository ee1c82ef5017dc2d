(** Facts about the parser: it reads what the rules of Grammar.v say. *)
From Coq Require Import String Ascii List ZArith NArith Bool Lia Arith.
From Verif Require Import PyStr StrFacts Types Inference Lexer LexFacts TypeParser TypeFacts TypeRoundTrip
  Functions FunctionFacts Ast Sql Parser Tokens ReadsFacts ParseBase ParseParts ParseExpr ParsePrim ParseForms ParseMain
  ParseRel ParseQuery Grammar ParseNone ParseJson ParseMore ParseMoreQ.
Import ListNotations.
Open Scope nat_scope.
Open Scope string_scope.
Open Scope list_scope.

(** * What the parser does with a phrase *)
Definition Exc (en : env) (c : nat) (e : node) (ts : list token) : Prop :=
  exists c', c <= c' /\ (c' <= 9 \/ c' = 10 /\ is_query e = true) /\ Ex en c' e ts.
Definition clause_read (en : env) (k : list token) (c : nat) (o : option node) (ts : list token) : Prop :=
  match o with
  | None => ts = [] \/ In k [[]; [K "ESCAPE"]; [K "WHERE"]; [K "HAVING"]] /\ exists te, ts = k ++ te /\ Nt en te
  | Some e => exists te, ts = k ++ te /\ Exc en c e te
  end.
Fixpoint meaning (en : env) (p : phrase) (ts : list token) {struct p} : Prop :=
  match p with
  | PList l => l <> [] /\ exists tss, ts = commas tss /\
      (fix go (l : list phrase) (tss : list (list token)) : Prop :=
         match l, tss with
         | [], [] => True
         | p :: l, t :: tss => meaning en p t /\ go l tss
         | _, _ => False
         end) l tss
  | PExpr c e => Exc en c e ts
  | PClause k c o => clause_read en k c o ts
  | PWhens l => l <> [] /\ exists tl, Forall2 (when_rel en) l tl /\ ts = whens_text tl
  | PArgs l => Ar en l ts
  | PSort o => Sr en o ts
  | POrder l => Or en l ts
  | PBound b => Br en b ts
  | PFrame f s e => Fr en f s e ts
  | PPartition l => partition en l ts
  | PWindow w => Wn en w ts
  | POver o => Ov en o ts
  | PFilter o => Fl en o ts
  | PItem e => Si en e ts /\ forall k, starts_expr (ts ++ k) = true
  | PSet l => Gs en l ts
  | PGroup g => Gr en g ts
  | PGroupBy o => Gb en o ts
  | PRel c r => exists c', c <= c' /\ c' <= 3 /\ Rl en c' r ts
  | PFrom o => exists o0 tr, from_ex en o o0 tr /\ ts = from_text tr
  | PCriteria x => Cr en x ts
  | PWindef x => Wd en x ts
  | PWindows l => Ws en l ts /\ distinct_names (map fst l) = true
  | PNamed e => Nq en e ts
  | PWith l => Wt en l ts
  | PCore q => Core en q ts /\ undressed q
  | PTerm c q => exists c', c <= c' /\ Tm en c' q ts
  | PQuery q => Rq en q ts /\ is_query q = true
  | PAny => Any en ts
  | PNothing => Nt en ts
  | PHidden => Hd en ts
  | PWhole => Wh en ts
  | PMember => Mb en ts
  | PArgument => Ag en ts
  end.
Lemma meaning_list en l ts :
  meaning en (PList l) ts <-> l <> [] /\ exists tss, ts = commas tss /\ Forall2 (meaning en) l tss.
Proof.
  cbn [meaning]. set (go := fix go (l : list phrase) (tss : list (list token)) : Prop := _).
  assert (G : forall l tss, go l tss <-> Forall2 (meaning en) l tss).
  { clear. induction l as [|p l IH]; intros [|t tss]; cbn [go]; split; intro H; try contradiction; try constructor;
      try (inversion H; fail); auto.
    - apply H.
    - now apply IH.
    - now inversion H.
    - inversion H. now apply IH. }
  split; intros (N & tss & E & H); (split; [exact N | exists tss; split; [exact E | now apply G]]).
Qed.
Lemma list_of {A} en (f : A -> phrase) (R : A -> list token -> Prop) l ts :
  (forall x t, meaning en (f x) t -> R x t) ->
  meaning en (PList (map f l)) ts -> l <> [] /\ exists tss, ts = commas tss /\ Forall2 R l tss.
Proof.
  intros Hf H. apply meaning_list in H. destruct H as (N & tss & E & F).
  split; [destruct l; [now elim N | discriminate]|]. exists tss. split; [exact E|]. clear E N.
  revert tss F. induction l as [|x l IH]; intros tss F; inversion F; subst; constructor; auto.
Qed.
Lemma exprs_of en l ts : meaning en (PExprs l) ts -> l <> [] /\ exists tss, ts = commas tss /\ Exs en l tss.
Proof. apply list_of. intros x t (c & _ & _ & H). now exists c. Qed.
Lemma typed_value e : value e -> typed e.
Proof. intros [t H]. exists t. unfold wrapped. rewrite H. destruct e; try reflexivity. discriminate H. Qed.
Lemma exo_of en c e ts : Exc en c e ts -> Exo en e ts.
Proof. intros (c' & _ & _ & H). now exists c'. Qed.
Lemma exc_of en c e ts : c <= 9 -> Ex en c e ts -> Exc en c e ts.
Proof. intros. exists c. auto. Qed.
Lemma else_of en e ts : clause_read en [K "ELSE"] 0 e ts ->
  exists te, opt_rel (Exo en) e te /\ ts = expr_clause "ELSE" te.
Proof.
  destruct e as [e|]; cbn [clause_read].
  - intros (te & -> & H). exists (Some te). split; [eapply exo_of; eauto | reflexivity].
  - intros [->|[H _]]; [now exists None|]. cbn [In] in H. repeat destruct H as [H|H]; try discriminate. contradiction.
Qed.
Lemma clause_of en k e ts : clause_read en [K k] 0 e ts ->
  exists e0 te, cond_ex en e e0 te /\ ts = expr_clause k te.
Proof.
  destruct e as [e|]; cbn [clause_read].
  - intros (te & -> & H). exists (Some e), (Some te). split; [|reflexivity]. apply Exo_cond. eapply exo_of; eauto.
  - intros [->|(_ & te & -> & H)].
    + exists None, None. split; [split; [exact Logic.I | reflexivity] | reflexivity].
    + exists (Some NNone), (Some te). split; [split; [now apply nt_reads | reflexivity] | reflexivity].
Qed.
Lemma distinct_nodup l : NoDup l -> distinct_names l = true.
Proof.
  induction 1 as [|x l N _ IH]; [reflexivity|]. cbn [distinct_names]. rewrite IH, andb_true_r, negb_true_iff.
  unfold mem. destruct (existsb _ _) eqn:E; [|reflexivity]. apply existsb_exists in E.
  destruct E as (y & Hy & Ey). apply String.eqb_eq in Ey. now subst.
Qed.
Lemma dressed_q a q : undressed q -> with_q a q = dressed a q.
Proof. destruct q; try contradiction; reflexivity. Qed.

Lemma query_some q : is_query q = true -> q <> NNone.
Proof. now destruct q. Qed.

Lemma repeat_of en p n ts : meaning en (PList (repeat p n)) ts -> exists tss, tss <> [] /\ ts = commas tss /\ Forall (meaning en p) tss.
Proof.
  intro H. apply meaning_list in H. destruct H as (N & tss & E & F). exists tss.
  destruct n as [|n]; [now elim N|]. split; [intros ->; inversion F|]. split; [exact E|]. clear E N.
  revert tss F. generalize (S n) as m. induction m as [|m IH]; intros tss F; inversion F; subst; constructor; auto.
Qed.
Ltac opens :=
  repeat match goal with
  | H : meaning _ ?p _ |- _ =>
      lazymatch p with
      | PList _ => fail
      | PExprs ?l => let N := fresh "N" in let tss := fresh "tss" in let F := fresh "F" in
                     apply exprs_of in H; destruct H as (N & tss & -> & F)
      | _ => cbn [meaning] in H
      end
  | H : Exc _ _ _ _ |- _ => destruct H as (? & ? & ? & H)
  | H : value _ |- _ => apply typed_value in H
  end.
Ltac prim := cbn [meaning]; apply exc_of; [lia|].
Lemma sound en p ts : derives en p ts -> meaning en p ts.
Proof.
  induction 1.
  - (* one *) apply meaning_list. split; [discriminate|]. exists [ts]. split; [reflexivity|]. now repeat constructor.
  - (* more *) apply meaning_list in IHderives2. destruct IHderives2 as (N & tss & -> & F).
    apply meaning_list. split; [discriminate|]. exists (ts :: tss). split; [|now constructor].
    destruct F; [now elim N | reflexivity].
  - (* tighter *) destruct IHderives as (d & ? & ? & E). exists d. split; [lia | auto].
  - (* paren *) opens. prim. eapply Ex_paren; eauto. intuition congruence.
  - (* scalar *) opens. destruct IHderives as [Q I]. exists 10. split; [lia|]. split.
    + right. auto.
    + now apply Ex_scalar.
  - opens. prim. eapply Ex_or; eauto.
  - opens. prim. eapply Ex_and; eauto.
  - opens. prim. eapply Ex_not; eauto.
  - opens. prim. eapply Ex_cmp; eauto.
    cbn [In] in H. repeat (destruct H as [H|H]; [injection H as <- <-; reflexivity|]). contradiction.
  - opens. prim. unfold negated. eapply Ex_between; eauto.
  - opens. prim. unfold negated. eapply Ex_inlist; eauto.
  - opens. prim. unfold negated. eapply Ex_inquery; eauto. apply IHderives2.
  - opens. prim. unfold negated. destruct o as [o|]; cbn [clause_read] in IHderives3.
    + destruct IHderives3 as (te & -> & (c & ? & ? & E)).
      eapply (Ex_like en neg _ _ v tv p tp (Some o) (Some te)); eauto. exists c. auto.
    + destruct IHderives3 as [->|(_ & te & -> & E)].
      * eapply (Ex_like en neg _ _ v tv p tp None None); eauto. exact Logic.I.
      * eapply (Like_text en neg _ _ v tv p tp (Some NNone) None (Some te)); eauto.
        cbn [opt_rel]. intros. now apply nt_value.
  - opens. prim. unfold negated.
    pose proof (fun H => Ex_isnull en neg _ _ _ IHderives H) as E. destruct neg; eapply E; lia.
  - opens. prim. unfold negated.
    pose proof (fun H H' => Ex_distinct en neg _ _ _ _ _ _ IHderives1 IHderives2 H H' H1) as E.
    destruct neg; eapply E; lia.
  - opens. prim. eapply Ex_concat; eauto.
  - opens. prim. cbn [In] in H.
    repeat (destruct H as [H|H]; [injection H as <- <-; eapply (Ex_vop en 2); eauto|]). contradiction.
  - opens. prim. cbn [In] in H.
    repeat (destruct H as [H|H]; [injection H as <- <-; eapply (Ex_vop en 3); eauto|]). contradiction.
  - opens. prim. eapply Ex_neg; eauto.
    pose proof (sh_first _ _ (ex_shape _ _ _ _ IHderives)) as Sf.
    destruct te as [|[ | | | | | | | | | | | | ] te]; try discriminate; try reflexivity. contradiction.
  - opens. prim. eapply Ex_pos; eauto.
  - prim. apply Ex_null.
  - prim. apply (Ex_bool en true).
  - prim. apply (Ex_bool en false).
  - prim. apply Ex_integer.
  - prim. apply Ex_minus_integer.
  - opens. prim. now apply Ex_decimal.
  - opens. prim. now apply Ex_minus_decimal.
  - opens. prim. now apply Ex_string.
  - opens. prim. now apply Ex_interval.
  - opens. prim. now apply Typector_any.
  - prim. apply Ex_field. now left.
  - prim. apply Ex_qualified; now left.
  - opens. prim. now apply Ex_row.
  - opens. prim. now apply Row_word.
  - opens. prim. now apply Array_some.
  - opens. prim. eapply (Ex_subscript en x0); eauto.
  - opens. prim. eapply Ex_lambda1; eauto.
  - opens. prim. eapply Ex_lambda; eauto.
  - (* case *) opens. prim. destruct IHderives2 as (N & tl' & F & ->).
    destruct (else_of _ _ _ IHderives3) as (to' & Ho & ->).
    destruct v as [v|]; cbn [clause_read] in IHderives1.
    + destruct IHderives1 as (te & -> & E). apply exo_of in E. now apply (Ex_case en (Some v) (Some te)).
    + destruct IHderives1 as [->|(_ & te & -> & E)].
      * now apply (Ex_case en None None).
      * apply (Case_text en (Some NNone) None (Some te)); auto. now apply Nt_operand.
  - (* when *) opens. cbn [meaning]. split; [discriminate|]. exists [(ta, tb)]. split.
    + constructor; [|constructor]. split; eexists; eauto.
    + cbn [whens_text map concat when_text fst snd]. now rewrite app_nil_r.
  - opens. destruct IHderives3 as (N & tl' & F & ->). cbn [meaning]. split; [discriminate|].
    exists ((ta, tb) :: tl'). split.
    + constructor; [|exact F]. split; eexists; eauto.
    + unfold whens_text. cbn [map concat]. unfold when_text at 2. cbn [fst snd app]. now rewrite <- app_assoc.
  - now left.
  - exists te. auto.
  - opens. prim. eapply Cast_text; eauto.
  - opens. prim. eapply Trycast_text; eauto.
  - opens. prim. eapply Ex_normalize; eauto.
  - (* session *) prim. replace [K (fn_name f)] with (lex (fn_name f)); [now apply Ex_bare|].
    destruct f; try discriminate H; reflexivity.
  - opens. prim. apply Datetime_plain; auto. cbn [In clocks] in H. now repeat destruct H as [<-|H].
  - opens. prim. unfold number in *. rewrite digits_val in *. apply Datetime_precise; auto.
    cbn [In clocks] in H. now repeat destruct H as [<-|H].
  - opens. prim. eapply call_paren; eauto.
  - opens. prim. eapply call_star; eauto.
  - constructor.
  - opens. now constructor.
  - constructor.
  - opens. cbn [meaning]. constructor; auto. eexists; eauto.
  - (* listagg *) opens. prim. destruct (list_of en PSort (Sr en) _ _ (fun x t m => m) IHderives2) as (N & tss & -> & F).
    apply Listagg_text; auto. eexists; eauto.
  - opens. cbn [meaning]. apply Sr_sort; auto. eexists; eauto.
  - apply Or_none.
  - destruct (list_of en PSort (Sr en) _ _ (fun x t m => m) IHderives) as (N & tss & -> & F). now apply Or_some.
  - now apply Br_unbounded.
  - now apply Br_current.
  - opens. cbn [meaning]. apply Br_bounded; auto. eexists; eauto.
  - apply Fr_none.
  - now apply Fr_start.
  - now apply Fr_between.
  - constructor.
  - opens. now constructor.
  - now apply Wn_spec.
  - apply Ov_none.
  - now apply Ov_spec.
  - now apply Ov_name.
  - (* item *) opens. cbn [meaning]. split; [apply Si_expr; eexists; eauto | intro k; eapply Ex_starts; eauto].
  - opens. cbn [meaning]. split; [apply Si_alias; auto; eexists; eauto |].
    intro k. rewrite <- app_assoc. eapply Ex_starts; eauto.
  - destruct H; (split; [|reflexivity]); [apply Si_star | apply Si_table_star].
  - split; [now apply Si_star_names | reflexivity].
  - opens. cbn [meaning]. apply Gs_single; auto. eexists; eauto.
  - apply (Gs_list en [] []). constructor.
  - opens. now apply Gs_list.
  - now apply Gr_set.
  - opens. now apply (Gr_many en false).
  - opens. now apply (Gr_many en true).
  - destruct (list_of en PSet (Gs en) _ _ (fun x t m => m) IHderives) as (N & tss & -> & F). now apply Gr_sets.
  - constructor.
  - destruct (list_of en PGroup (Gr en) _ _ (fun x t m => m) IHderives) as (N & tss & -> & F). now constructor.
  - (* relations *) destruct IHderives as (d & ? & ? & E). exists d. split; [lia | auto].
  - exists 3. split; [lia|]. split; [lia|]. now apply Rl_named.
  - destruct IHderives. exists 3. split; [lia|]. split; [lia|]. apply Rl_query; [assumption | now apply query_some].
  - destruct IHderives as (d & _ & _ & E). exists 3. split; [lia|]. split; [lia|]. eapply Rl_paren; eauto.
  - destruct IHderives. exists 3. split; [lia|]. split; [lia|]. now apply Rl_lateral_word.
  - opens. exists 3. split; [lia|]. split; [lia|]. now apply Rl_unnest_text.
  - destruct IHderives as (d & Hd & Hd' & E). exists 2. split; [lia|]. split; [lia|]. apply Rl_alias; auto. replace 3 with d by lia. exact E.
  - opens. destruct IHderives1 as (d & Hd & Hd' & E). exists 1. split; [lia|]. split; [lia|]. eapply Rl_sample_word; eauto. eexists; eauto.
  - destruct IHderives1 as (d1 & ? & ? & E1), IHderives2 as (d2 & ? & ? & E2). exists 0. split; [lia|]. split; [lia|]. eapply Rl_join_crit; eauto.
  - destruct IHderives1 as (d1 & ? & ? & E1), IHderives2 as (d2 & ? & ? & E2). exists 0. split; [lia|]. split; [lia|]. eapply Rl_join_bare; eauto.
  - opens. constructor. eexists; eauto.
  - now constructor.
  - (* queries *) exists None, None. split; [apply Rl_from; exact Logic.I | reflexivity].
  - destruct IHderives as (d & _ & _ & E). exists (Some r), (Some tr). split; [apply Rl_from; now exists d | reflexivity].
  - now constructor.
  - split; [constructor | reflexivity].
  - destruct (list_of en PWindef (Wd en) _ _ (fun x t m => m) IHderives) as (N & tss & -> & F).
    split; [now constructor | now apply distinct_nodup].
  - (* select *)
    apply meaning_list in IHderives1. destruct IHderives1 as (N & tss & -> & F).
    assert (F' : Forall2 (Si en) l tss /\ forall k, starts_expr (hd [] tss ++ k) = true).
    { clear - F N. destruct l as [|x l]; [now elim N|].
      split; [|inversion F; subst; cbn [meaning] in *; intuition].
      clear N. revert tss F. generalize (x :: l). clear. intro l. induction l as [|x l IH]; intros tss F; inversion F; subst;
        constructor; auto. now match goal with H : meaning _ _ _ |- _ => destruct H end. }
    destruct F' as [F1 F2]. destruct IHderives2 as (fr0 & tfr' & Hfr & ->).
    destruct (clause_of _ _ _ _ IHderives3) as (wh0 & twh' & Hwh & ->).
    destruct (clause_of _ _ _ _ IHderives5) as (hv0 & thv' & Hhv & ->).
    destruct IHderives6 as [Hws Hd].
    split; [|reflexivity]. apply (Core_text en _ _ _ _ _ fr0 _ _ wh0 _ _ _ _ hv0); auto. destruct l; [now elim N | discriminate].
  - split; [now apply Core_named | reflexivity].
  - opens. split; [now apply Core_values | reflexivity].
  - destruct IHderives as (d & ? & E). exists d. split; [lia | auto].
  - destruct IHderives. exists 3. split; [lia|]. now apply Tm_core.
  - destruct IHderives1 as (d1 & ? & E1), IHderives2 as (d2 & ? & E2). exists (op_tight op). split; [lia|].
    eapply Tm_op; eauto.
  - destruct IHderives. now constructor.
  - constructor.
  - destruct (list_of en PNamed (Nq en) _ _ (fun x t m => m) IHderives) as (N & tss & -> & F). now constructor.
  - destruct IHderives2 as (d & _ & E). rewrite <- (dressed_q _ _ (tm_plain _ _ _ _ E)). split.
    + eapply Rq_text; eauto.
    + rewrite (dressed_q _ _ (tm_plain _ _ _ _ E)). pose proof (tm_plain _ _ _ _ E) as U.
      destruct q; try contradiction; reflexivity.
  - (* nothing *) opens. right. exists x, e. auto.
  - now left.
  - destruct IHderives. now apply (Hd_query en q).
  - now apply Hd_paren.
  - now apply Nt_query.
  - now apply Nt_paren.
  - apply Nt_binary.
  - destruct IHderives as [Q _]. apply Nt_exists. intros n k Hn. exists q. apply (rq_read _ _ _ Q); [lia | reflexivity].
  - apply Nt_exists. intros n k Hn. exists NNone. apply (hd_query _ _ IHderives); [lia | reflexivity].
  - now apply Position_none.
  - now apply Trim_plain.
  - now apply Trim_comma.
  - now apply Trim_from.
  - now apply Trim_chars.
  - cbn [meaning] in *. rewrite <- (app_nil_r tb). apply Substring_none; auto.
  - apply Substring_none; auto. right. eauto.
  - now apply Extract_none.
  - apply (Grouping_none en []). intros ? [].
  - now apply Grouping_none.
  - (* whole *) destruct IHderives as (c & _ & _ & E). exists e. intros n Hn. exact (ex_rd _ _ _ _ n E Hn).
  - exists NNone. now apply nt_reads.
  - now apply Json_path.
  - now apply Json_default.
  - apply Json_empty. cbn [In]. auto.
  - destruct (repeat_of _ _ _ _ IHderives) as (tss & N & -> & F). now apply Json_array.
  - apply Json_empty. cbn [In]. auto.
  - destruct (repeat_of _ _ _ _ IHderives) as (tss & N & -> & F). now apply Json_object.
  - now apply mb_key.
  - now apply mb_value.
  - now apply mb_colon.
  - right. eauto.
  - apply Fl_lost; [assumption | now apply nt_reads].
  - exists (Some NNone), (Some (paren ts)). split; [|reflexivity]. split; [now apply Hd_rel | reflexivity].
  - (* table functions *) apply ag_value. now apply tv_expr.
  - apply ag_value. now apply tv_table.
  - apply ag_named. now apply tv_expr.
  - apply ag_named. now apply tv_table.
  - exists (Some NNone), (Some (K "TABLE" :: paren (dotted l ++ paren []))). split; [|reflexivity].
    split; [|reflexivity]. apply (Tf_rel en l []); auto.
  - destruct (repeat_of _ _ _ _ IHderives) as (tss & N & -> & F).
    exists (Some NNone), (Some (K "TABLE" :: paren (dotted l ++ paren (commas tss)))). split; [|reflexivity].
    split; [|reflexivity]. apply Tf_rel; auto.
Qed.
