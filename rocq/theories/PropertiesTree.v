(** C57: the tree that the command [tree] shows. *)
From Coq Require Import String List ZArith Bool Lia.
From Verif Require Import PyStr StrFacts Types TypeParser Inference Functions Ast Walk NodeFacts Tokens Equals Cli Tree ShowFacts TreeFacts
  Parser PropertiesResolve PropertiesEquals PropertiesLiterals.
Import ListNotations.
Open Scope nat_scope.
Open Scope string_scope.
Open Scope list_scope.

(** * Objects whose tree shows everything

    No part is [None], and the data type of a literal tells what kind of value it
    has. *)
Definition literal_type (l : lit) (t : dtype) : Prop :=
  match l with
  | LNone => True
  | LBool _ => type_name t = "BOOLEAN"
  | LInt _ => type_name t = "INTEGER" \/ type_name t = "BIGINT"
  | LDec _ => type_name t = "DECIMAL"
  | LStr _ => type_name t = "VARCHAR" \/ type_name t = "CHAR"
  | LFloat _ => type_name t = "DOUBLE"
  end.
Inductive shown : node -> Prop :=
| shown_node e : e <> NNone -> (forall l t, e = NLit l t -> literal_type l t) -> Forall shown (kids e) -> shown e.

Lemma lit_inj l l' t : literal_type l t -> literal_type l' t -> t_lit l = t_lit l' -> l = l'.
Proof.
  intros H H' E.
  destruct l as [|b|z|d|s|r], l' as [|b'|z'|d'|s'|r']; cbn [literal_type t_lit] in *; try discriminate E; try reflexivity.
  all: try (exfalso; repeat match goal with H : _ \/ _ |- _ => destruct H as [H|H] end; rewrite H in H'; discriminate H').
  - apply bool_inj in E. now subst.
  - apply int_inj in E. now subst.
  - apply text_inj, dec_str_inj in E. now subst.
  - apply text_inj in E. now subst.
  - apply text_inj in E. now subst.
Qed.
Lemma treeify_branching e : e <> NNone -> branching (treeify e).
Proof. intros N. destruct e; try exact Logic.I; [now elim N|]. cbn [treeify]. destruct (is_aggregate f); exact Logic.I. Qed.
Definition label (t : tree) : string := match t with Leaf s => s | Tree s _ => s end.
Lemma treeify_label e : e <> NNone -> label (treeify e) = class_name (class_of e).
Proof. intros N. destruct e; try reflexivity; [now elim N|]. cbn [treeify]. destruct (is_aggregate f); reflexivity. Qed.
Definition attr (x : node) : option tree := match x with NNone => None | _ => Some (treeify x) end.

Definition attributes (e : node) : list (string * option tree) :=
  let ty := ("data_type", match data_type e with Ok t => t_type t | Err _ => None end) in
  match e with
  | NNone => []
  | NLit l _ => [ty; ("value", t_lit l)]
  | NField n tr _ => [ty; ("name", t_text n); ("table", t_tref attr tr)]
  | NAliased v a => [ty; ("value", attr v); ("alias", t_text a)]
  | NStar tr _ => [ty; ("table", t_tref attr tr)]
  | NAliasedStar s al => [ty; ("star", attr s); ("aliases", t_list Leaf al)]
  | NVar n => [ty; ("name", t_text n)]
  | NLambda vs b =>
      [ty; ("inputs", t_list (fun n => object "Variable" [("data_type", t_type unknown); ("name", t_text n)]) vs);
           ("expr", attr b)]
  | NUn _ v => [ty; ("value", attr v)]
  | NBin _ l r => [ty; ("left", attr l); ("right", attr r)]
  | NBetween v lo hi => [ty; ("value", attr v); ("lower", attr lo); ("upper", attr hi)]
  | NArray vs => [ty; ("values", t_list treeify vs)]
  | NInQuery v q => [ty; ("value", attr v); ("query", attr q)]
  | NInList v vs => [ty; ("value", attr v); ("exprs", t_list treeify vs)]
  | NLike v p es => [ty; ("value", attr v); ("pattern", attr p); ("escape", t_opt attr es)]
  | NTypeCtor v n => [ty; ("value", t_text v); ("type_name", t_text n)]
  | NRow vs => [ty; ("values", t_list treeify vs)]
  | NInterval v f t =>
      [ty; ("value", t_text v); ("from_interval", t_text f); ("to_interval", t_opt t_text t)]
  | NCast _ v _ => [ty; ("expr", attr v)]
  | NSubscript v i => [ty; ("value", attr v); ("index", attr i)]
  | NCase bs el v =>
      [ty; ("branches", t_list (t_branch attr) bs); ("else_", t_opt (fun x => Some (t_else attr x)) el);
           ("value", t_opt attr v)]
  | NFunc f args fo =>
      if is_aggregate f then (ty :: t_fopts treeify attr fo ++ t_args treeify attr f args)
      else (ty :: t_args treeify attr f args)
  | NDateTime _ p => [ty; ("precision", t_int p)]
  | NListAgg v sep ov ob =>
      (ty :: t_fopts treeify attr (mkFopts ob None None false)
           ++ [("value", attr v); ("separator", t_text sep);
               ("overflow_filler", t_opt (fun x => Some (t_overflow x)) ov)])
  | NNormalize v nf => [ty; ("string", attr v); ("normal_form", t_opt t_form nf)]
  | NSelect sel fr wh gb hv d ws qa =>
      (ty :: t_qattrs treeify attr qa
           ++ [("select", t_list treeify sel); ("from_", t_opt attr fr); ("where", t_opt attr wh);
               ("groupby", t_opt (fun g => Some (t_groupby treeify g)) gb); ("having", t_opt attr hv);
               ("select_quantifier", t_quantifier d);
               ("window", match ws with [] => None
                          | _ => Some (Tree "<dict>" (map (t_named treeify attr) ws)) end)])
  | NSetQuery _ l r d qa =>
      (ty :: t_qattrs treeify attr qa
           ++ [("left_query", attr l); ("right_query", attr r); ("set_quantifier", t_quantifier d)])
  | NTableQuery t qa => (ty :: t_qattrs treeify attr qa ++ [("table", attr t)])
  | NValues es qa => (ty :: t_qattrs treeify attr qa ++ [("exprs", t_list treeify es)])
  | NTable n s c => (* 66-68: [_column_schema] is hidden *)
      [("name", t_text n); ("schema", t_opt t_text s); ("catalog", t_opt t_text c)]
  | NAliasedRel r a cols =>
      [("relation", attr r); ("alias", t_text a); ("column_aliases", t_list Leaf cols)]
  | NJoin l r jt nat c =>
      [("left_relation", attr l); ("right_relation", attr r);
           ("config", Some (object "JoinConfig" [("join_type", t_join_type jt); ("natural", t_bool nat);
                                                 ("criteria", t_opt (fun x => Some (t_crit attr x)) c)]))]
  | NUnnest vs or => [("arrays", t_list treeify vs); ("with_ordinality", t_bool or)]
  | NLateral q => [("subquery", attr q)]
  | NSample r st p =>
      [("relation", attr r);
           ("sample_type", t_text (match st with Bernoulli => "SampleType.BERNOULLI"
                                               | System => "SampleType.SYSTEM" end));
           ("percentage", attr p)]
  end.
Lemma treeify_attributes e : e <> NNone -> treeify e = object (class_name (class_of e)) (attributes e).
Proof. intros N. destruct e; try reflexivity; [now elim N|]. cbn [treeify attributes class_of]. destruct (is_aggregate f); reflexivity. Qed.
Lemma type_of_literal l t : built (NLit l t) -> data_type (NLit l t) = Ok t.
Proof. intros [u B]. unfold data_type. cbn [check] in *. unbind. now rewrite E. Qed.
Lemma type_of_field n tr t : built (NField n tr t) -> data_type (NField n tr t) = Ok t.
Proof. intros [u B]. unfold data_type. rewrite B. cbn [check] in B. unbind. reflexivity. Qed.
Lemma type_of_star tr t : built (NStar tr t) -> data_type (NStar tr t) = Ok t.
Proof. intros [u B]. unfold data_type. rewrite B. cbn [check] in B. unbind. reflexivity. Qed.
Lemma type_of_cast y v t : built (NCast y v t) -> data_type (NCast y v t) = Ok t.
Proof. intros [u B]. unfold data_type. rewrite B. cbn [check] in B. unbind. reflexivity. Qed.
Lemma function_built f args fo : built (NFunc f args fo) ->
  fn_special f = false /\ arity_ok f (length args) = true /\ (is_aggregate f = false -> fo = no_fopts).
Proof.
  intros [u B]. cbn [check] in B. unbind. destruct (fn_special f); [discriminate|]. destruct (arity_ok f (length args)); [|discriminate].
  cbn [negb] in *. destruct (is_aggregate f); cbn [negb andb] in *; [repeat split; congruence|].
  destruct fo as [[|] [|] [|] []]; cbn in *; try discriminate; auto.
Qed.
Lemma datetime_built f p : built (NDateTime f p) -> fn_special f = true.
Proof. intros [u B]. cbn [check] in B. destruct f; try discriminate B; reflexivity. Qed.

Ltac part F := eapply faith_incl; [exact F|inside|inside].
Ltac got F E :=
  lazymatch type of E with
  | attr _ = attr _ => apply (faith_one treeify attr) in E; [|part F]
  | t_opt attr _ = t_opt attr _ => apply (faith_opt treeify attr) in E; [|part F]
  | t_list treeify _ = t_list treeify _ => apply t_list_inj in E; [|eapply fa_inj; part F]
  | t_text _ = t_text _ => apply text_inj in E
  | t_int _ = t_int _ => apply int_inj in E
  | t_bool _ = t_bool _ => apply bool_inj in E
  | t_opt t_text _ = _ => apply opt_text_inj in E
  | t_opt t_int _ = _ => apply opt_int_inj in E
  | t_list Leaf _ = _ => apply names_inj in E
  | t_quantifier _ = _ => apply quantifier_inj in E
  | _ => idtac
  end.
Ltac all_got F E :=
  lazymatch type of E with
  | _ :: _ = _ :: _ => let H := fresh "H" in next E H; got F H; all_got F E
  | _ => idtac
  end.
Lemma same_tree_same a : forall b, built a -> built b -> shown a -> shown b -> treeify a = treeify b -> a = b.
Proof.
  induction a as [a IH] using kids_ind. intros b Ba Bb Sa Sb E.
  pose proof (parts_built a Ba) as Ka. pose proof (parts_built b Bb) as Kb. rewrite Forall_forall in Ka, Kb.
  inversion Sa as [? Na La Fa]; subst. inversion Sb as [? Nb Lb Fb]; subst. rewrite Forall_forall in Fa, Fb.
  assert (F : faith treeify attr (kids a) (kids b)).
  { assert (O : forall x, shown x -> attr x = Some (treeify x)).
    { intros x S. inversion S as [? N _ _]; subst. unfold attr. destruct x; try reflexivity. now elim N. }
    constructor; [auto|auto|]. intros x y Hx Hy H. apply IH; auto. }
  assert (BR : forall v, In v (kids a ++ kids b) -> branching (treeify v)).
  { intros v Hv. apply treeify_branching. apply in_app_iff in Hv as [Hv|Hv]; [apply Fa in Hv|apply Fb in Hv]; inversion Hv; assumption. }
  assert (C : class_of a = class_of b).
  { apply class_name_inj. rewrite <- !treeify_label by assumption. now rewrite E. }
  rewrite !treeify_attributes in E by assumption.
  clear IH Sa Sb Fa Fb Ka Kb Na Nb.
  destruct a, b; try discriminate C; try reflexivity; cbn [kids] in F, BR; cbn [attributes] in E.
  - (* NLit *) fields E. next E E1. next E E2. rewrite !type_of_literal in E1 by assumption. apply type_inj in E1. subst t0.
    f_equal. apply (lit_inj _ _ t); [now apply La|now apply Lb|exact E2].
  - (* NField *) fields E. next E E1. next E E2. next E E3. rewrite !type_of_field in E1 by assumption. apply type_inj in E1.
    apply text_inj in E2. apply (tref_inj treeify) in E3; [|exact BR|exact F]. now subst.
  - (* NAliased *) fields E. all_got F E. now subst.
  - (* NStar *) fields E. next E E1. next E E2. rewrite !type_of_star in E1 by assumption. apply type_inj in E1.
    apply (tref_inj treeify) in E2; [|exact BR|exact F]. now subst.
  - (* NAliasedStar *) fields E. all_got F E. now subst.
  - (* NVar *) fields E. all_got F E. now subst.
  - (* NLambda *) fields E. all_got F E. apply t_list_inj in H0; [now subst|].
    intros x y _ _ V. fields V. all_got F V. assumption.
  - (* NUn *) injection C as ->. fields E. all_got F E. now subst.
  - (* NBin *) injection C as ->. fields E. all_got F E. now subst.
  - fields E. all_got F E. now subst.
  - fields E. all_got F E. now subst.
  - fields E. all_got F E. now subst.
  - fields E. all_got F E. now subst.
  - fields E. all_got F E. now subst.
  - fields E. all_got F E. now subst.
  - fields E. all_got F E. now subst.
  - fields E. all_got F E. now subst.
  - (* NCast *) injection C as ->. fields E. next E E1. next E E2. rewrite !type_of_cast in E1 by assumption. apply type_inj in E1. got F E2. now subst.
  - fields E. all_got F E. now subst.
  - (* NCase *) fields E. all_got F E.
    apply (parts_list treeify attr _ (fun cv => [fst cv; snd cv])) in H0; [|apply branch_inj|part F].
    assert (else_ = else_0).
    { destruct else_ as [x|], else_0 as [y|]; cbn [t_opt] in H1; try discriminate H1; [|reflexivity].
      apply some_inj in H1. unfold t_else in H1. fields H1. next H1 H3. got F H3. now subst. }
    now subst.
  - (* NFunc *) injection C as <-. destruct (function_built _ _ _ Ba) as (SP & A & O). destruct (function_built _ _ _ Bb) as (SP' & A' & O').
    destruct (fn_keys treeify attr f args) as (K1 & K2 & K3). destruct (is_aggregate f).
    + apply object_inj in E.
      * next E E1. apply (fopts_inj treeify attr) in E as [-> E]; [|part F]. apply args_inj in E; [now subst|assumption|assumption|part F].
      * destruct fo as [ob fi wi ig]. exact K3.
      * destruct fo as [ob fi wi ig], fo0 as [ob' fi' wi' ig']. cbn [t_fopts app map fst]. now rewrite (args_keys treeify attr f args args0).
    + rewrite O, O' by reflexivity. apply object_inj in E.
      * next E E1. apply args_inj in E; [now subst|assumption|assumption|part F].
      * exact K2.
      * cbn [map fst]. now rewrite (args_keys treeify attr f args args0).
  - exfalso. injection C as <-. apply function_built in Ba as (SP & _). apply datetime_built in Bb. congruence.
  - exfalso. injection C as ->. apply function_built in Ba as (SP & _). discriminate SP.
  - exfalso. injection C as ->. apply function_built in Ba as (SP & _). discriminate SP.
  - exfalso. injection C as <-. apply function_built in Bb as (SP & _). apply datetime_built in Ba. congruence.
  - injection C as <-. fields E. all_got F E. now subst.
  - exfalso. injection C as ->. destruct Ba as [u B]. discriminate B.
  - exfalso. injection C as ->. destruct Ba as [u B]. discriminate B.
  - exfalso. injection C as <-. apply function_built in Bb as (SP & _). discriminate SP.
  - exfalso. injection C as <-. destruct Bb as [u B]. discriminate B.
  - (* NListAgg *) fields E. next E E1. apply (fopts_inj treeify attr) in E as [E2 E]; [|part F]. injection E2 as ->.
    all_got F E. apply overflow_inj in H1. now subst.
  - exfalso. injection C as <-. apply function_built in Bb as (SP & _). discriminate SP.
  - exfalso. injection C as <-. destruct Bb as [u B]. discriminate B.
  - fields E. all_got F E. apply form_inj in H1. now subst.
  - (* NSelect *) destruct qa as [q1 q2 q3 q4], qa0 as [q1' q2' q3' q4']. fields E. next E E1.
    apply (qattrs_inj treeify attr) in E as [EQ E]; [|part F]. injection EQ as <- <- <- <-. all_got F E.
    assert (gb = gb0).
    { destruct gb as [g|], gb0 as [g'|]; cbn [t_opt] in H2; try discriminate H2; [|reflexivity].
      apply some_inj in H2. f_equal. apply (groupby_inj treeify attr) in H2; [exact H2|part F]. }
    assert (windows = windows0).
    { assert (L : t_list (t_named treeify attr) windows = t_list (t_named treeify attr) windows0).
      { destruct windows, windows0; cbn [t_list]; try discriminate H5; [reflexivity|].
        apply some_inj in H5. apply (f_equal children_of) in H5. cbn [children_of] in H5. now rewrite H5. }
      apply (parts_list treeify attr _ (fun nw => window_kids (snd nw))) in L; [exact L|apply named_inj|part F]. }
    now subst.
  - (* NSetQuery *) injection C as <-. destruct qa as [q1 q2 q3 q4], qa0 as [q1' q2' q3' q4']. fields E. next E E1.
    apply (qattrs_inj treeify attr) in E as [EQ E]; [|part F]. injection EQ as <- <- <- <-. all_got F E. now subst.
  - destruct qa as [q1 q2 q3 q4], qa0 as [q1' q2' q3' q4']. fields E. next E E1.
    apply (qattrs_inj treeify attr) in E as [EQ E]; [|part F]. injection EQ as <- <- <- <-. all_got F E. now subst.
  - destruct qa as [q1 q2 q3 q4], qa0 as [q1' q2' q3' q4']. fields E. next E E1.
    apply (qattrs_inj treeify attr) in E as [EQ E]; [|part F]. injection EQ as <- <- <- <-. all_got F E. now subst.
  - fields E. all_got F E. now subst.
  - fields E. all_got F E. now subst.
  - (* NJoin *) fields E. all_got F E. apply some_inj in H1. fields H1. all_got F H1. apply join_type_inj in H2.
    assert (crit = crit0).
    { destruct crit as [x|], crit0 as [y|]; cbn [t_opt] in H4; try discriminate H4; [|reflexivity].
      apply some_inj in H4. f_equal. apply (crit_inj treeify attr) in H4; [exact H4|part F]. }
    now subst.
  - fields E. all_got F E. now subst.
  - fields E. all_got F E. now subst.
  - fields E. all_got F E. destruct st, st0; try discriminate H0; now subst.
Qed.

(** * A tree determines the object *)
Theorem C57_faithful a b : built a -> built b -> shown a -> shown b -> treeify a = treeify b -> a = b.
Proof. intros. now apply same_tree_same. Qed.
Print Assumptions C57_faithful.

(** * Every part has its tree inside *)
Inductive subtree (t : tree) : tree -> Prop :=
| sub_self : subtree t t
| sub_child label l x : In x l -> subtree t x -> subtree t (Tree label l).
Inductive part (x : node) : node -> Prop :=
| part_self : part x x
| part_kid y e : In y (kids e) -> part x y -> part x e.

Lemma sub_trans a b c : subtree a b -> subtree b c -> subtree a c.
Proof. intros H. induction 1 as [|l ts x I _ IH]; [exact H|]. now apply (sub_child a l ts x). Qed.
Lemma sub_object t c l k v : In (k, Some v) l -> subtree t v -> subtree t (object c l).
Proof.
  intros I S. apply (sub_child t c (entries l) (Tree k [v])); [|apply (sub_child t k [v] v); [now left|exact S]].
  induction l as [|[k' [v'|]] l IH]; [now elim I| |]; destruct I as [I|I]; cbn [entries].
  - injection I as -> ->. now left.
  - right. now apply IH.
  - discriminate I.
  - now apply IH.
Qed.
Lemma sub_list {A} (g : A -> tree) t x l : In x l -> subtree t (g x) -> exists v, t_list g l = Some v /\ subtree t v.
Proof.
  intros I S. destruct l as [|y l]; [now elim I|]. eexists. split; [reflexivity|].
  apply (sub_child t "<list>" _ (g x)); [now apply in_map|exact S].
Qed.
Definition has (v : option tree) (t : tree) : Prop := exists u, v = Some u /\ subtree t u.
Lemma has_field t c l k v : In (k, v) l -> has v t -> subtree t (object c l).
Proof. intros I (u & -> & S). exact (sub_object t c l k u I S). Qed.
Lemma has_list {A} (g : A -> tree) t x l : In x l -> subtree t (g x) -> has (t_list g l) t.
Proof. apply sub_list. Qed.
Lemma has_attr x : x <> NNone -> has (attr x) (treeify x).
Proof. intros N. exists (treeify x). split; [|constructor]. destruct x; try reflexivity. now elim N. Qed.
Lemma has_some t u : subtree t u -> has (Some u) t.
Proof. intros S. now exists u. Qed.
Lemma has_nodes x l : In x l -> has (t_list treeify l) (treeify x).
Proof. intros I. apply (has_list _ _ x); [exact I|constructor]. Qed.
Lemma has_opt x o : In x (opt_kids o) -> x <> NNone -> has (t_opt attr o) (treeify x).
Proof. destruct o as [y|]; cbn [opt_kids]; intros I; [|now elim I]. destruct I as [<-|[]]. apply has_attr. Qed.
Lemma has_orders x l : In x (map o_value l) -> x <> NNone -> has (t_list (t_order attr) l) (treeify x).
Proof.
  intros I N. apply in_map_iff in I as (o & <- & I). apply (has_list _ _ o); [exact I|]. destruct o as [v d n]; cbn [t_order o_value].
  eapply has_field; [now left|]. now apply has_attr.
Qed.
Lemma has_bound x b : In x (bound_kids b) -> x <> NNone -> subtree (treeify x) (t_bound attr b).
Proof.
  destruct b as [d v|d|]; cbn [bound_kids t_bound]; intros I N; [|now elim I|now elim I]. destruct I as [<-|[]].
  eapply has_field; [right; now left|]. now apply has_attr.
Qed.
Lemma has_window x w : In x (window_kids w) -> x <> NNone ->
  exists c, In c (children_of (t_window treeify attr w)) /\ subtree (treeify x) c.
Proof.
  intros I N. assert (S : subtree (treeify x) (t_window treeify attr w)).
  { destruct w as [p ob ps fr s e]; cbn [window_kids t_window] in *. rewrite !in_app_iff in I.
    destruct I as [I|[I|[I|I]]].
    - eapply has_field; [right; now left|]. now apply has_orders.
    - eapply has_field; [right; right; now left|]. now apply has_nodes.
    - eapply has_field; [do 4 right; now left|]. now apply has_some, has_bound.
    - eapply has_field; [do 5 right; now left|]. now apply has_some, has_bound. }
  destruct w as [p ob ps fr s e]; cbn [t_window] in *. unfold object in *. cbn [children_of].
  inversion S as [E|lab l c Ic Sc]; subst.
  - exfalso. assert (L : label (treeify x) = "Window") by now rewrite E. rewrite treeify_label in L by exact N.
    revert L. destruct (class_of x) as [| | | | | | | |[]|[]| | | | | | | | |[]| | |[]| |[]| | | | | | | |]; discriminate.
  - now exists c.
Qed.
Lemma has_window_tree x w : In x (window_kids w) -> x <> NNone -> subtree (treeify x) (t_window treeify attr w).
Proof.
  intros I N. destruct (has_window x w I N) as (c & Ic & S). destruct w as [p ob ps fr s e]. cbn [t_window] in *.
  unfold object in *. cbn [children_of] in Ic. exact (sub_child _ _ _ c Ic S).
Qed.
Lemma has_fopts x fo : In x (fopts_kids fo) -> x <> NNone ->
  exists k v, In (k, v) (t_fopts treeify attr fo) /\ has v (treeify x).
Proof.
  destruct fo as [ob fi wi ig]; cbn [fopts_kids t_fopts]. rewrite !in_app_iff. intros [I|[I|I]] N.
  - exists "orderby". eexists. split; [now left|]. now apply has_orders.
  - exists "filter_". eexists. split; [right; now left|]. now apply has_opt.
  - exists "window". eexists. split; [right; right; now left|]. destruct wi as [w|]; [|now elim I]. cbn [t_opt].
    apply has_some. now apply has_window_tree.
Qed.
Lemma has_qattrs x q : In x (qattrs_kids q) -> x <> NNone ->
  exists k v, In (k, v) (t_qattrs treeify attr q) /\ has v (treeify x).
Proof.
  destruct q as [wi ob off lim]; cbn [qattrs_kids t_qattrs]. rewrite !in_app_iff. intros [I|I] N.
  - exists "with_". eexists. split; [do 3 right; now left|]. now apply has_nodes.
  - exists "orderby". eexists. split; [do 2 right; now left|]. now apply has_orders.
Qed.
Lemma has_group x g : In x (group_kids g) -> subtree (treeify x) (t_group treeify g).
Proof.
  destruct g as [l|ll|l|l]; cbn [group_kids t_group]; intros I.
  1, 3, 4: eapply has_field; [now left|]; now apply has_nodes.
  apply in_concat in I as (l & Il & Ix). eapply has_field; [now left|]. apply (has_list _ _ l); [exact Il|].
  eapply has_field; [now left|]. now apply has_nodes.
Qed.
Lemma has_groupby x g : In x (groupby_kids g) -> subtree (treeify x) (t_groupby treeify g).
Proof.
  destruct g as [gs d]; cbn [groupby_kids t_groupby]. intros I. apply in_concat in I as (l & Il & Ix).
  apply in_map_iff in Il as (g & <- & Ig). eapply has_field; [now left|]. apply (has_list _ _ g); [exact Ig|]. now apply has_group.
Qed.
Lemma has_args x f args : arity_ok f (length args) = true -> In x args -> x <> NNone ->
  exists k v, In (k, v) (t_args treeify attr f args) /\ has v (treeify x).
Proof.
  intros A I N. unfold t_args. destruct (fn_variadic f) eqn:V.
  - exists "values". eexists. split; [now left|]. now apply has_nodes.
  - apply fn_arity_attrs in A; [|exact V]. revert A I. generalize (fn_attrs f) as names. clear V.
    induction args as [|y args IH]; intros names A I; [now elim I|]. destruct names as [|k names]; [cbn in A; lia|].
    cbn [map t_named_args]. destruct I as [->|I].
    + exists k, (attr x). split; [now left|]. now apply has_attr.
    + destruct (IH names) as (k' & v & Iv & S); [cbn in A; lia|exact I|]. exists k', v. split; [now right|exact S].
Qed.
Lemma has_tref x tr : In x (tref_kids tr) -> x <> NNone -> has (t_tref attr tr) (treeify x).
Proof. destruct tr as [|s|v]; cbn [tref_kids t_tref]; intros I; [now elim I|now elim I|]. destruct I as [<-|[]]. apply has_attr. Qed.

Tactic Notation "at_field" integer(n) := eapply has_field; [do n right; now left|].
Ltac here := first [now apply has_attr | now apply has_opt | now apply has_nodes | now apply has_tref].
Lemma kid_subtree e x : built e -> In x (kids e) -> x <> NNone -> subtree (treeify x) (treeify e).
Proof.
  intros B I N. assert (Ne : e <> NNone) by (intros ->; elim I). rewrite (treeify_attributes e Ne).
  destruct e; cbn [kids] in I; cbn [attributes class_of]; try (now elim I).
  all: try (repeat (destruct I as [<-|I]; [first [at_field 0; here|at_field 1; here|at_field 2; here|at_field 3; here]|]);
            first [now elim I|at_field 1; here|at_field 2; here|at_field 3; here|at_field 0; here]).
  - (* NCase *) rewrite !in_app_iff in I. destruct I as [I|[I|I]].
    + apply in_concat in I as (l & Il & Ix). apply in_map_iff in Il as ([c v] & <- & Ib). at_field 1.
      apply (has_list _ _ (c, v)); [exact Ib|]. cbn [t_branch fst snd] in *.
      destruct Ix as [<-|[<-|[]]]; [at_field 0|at_field 1]; here.
    + at_field 2. destruct else_ as [y|]; cbn [opt_kids] in I; [|now elim I]. destruct I as [<-|[]]. cbn [t_opt]. apply has_some. unfold t_else. at_field 0. here.
    + at_field 3. here.
  - (* NFunc *) apply in_app_iff in I. destruct (function_built _ _ _ B) as (_ & A & O). destruct (is_aggregate f).
    + destruct I as [I|I].
      * destruct (has_args x f args A I N) as (k & v & Iv & S). eapply has_field; [|exact S]. right. apply in_app_iff. right. exact Iv.
      * destruct (has_fopts x fo I N) as (k & v & Iv & S). eapply has_field; [|exact S]. right. apply in_app_iff. left. exact Iv.
    + rewrite O in I by reflexivity. destruct I as [I|I]; [|cbn in I; now elim I].
      destruct (has_args x f args A I N) as (k & v & Iv & S). eapply has_field; [|exact S]. right. exact Iv.
  - (* NListAgg *) destruct I as [<-|I].
    + at_field 5. here.
    + at_field 1. now apply has_orders.
  - (* NSelect *) rewrite !in_app_iff in I. destruct I as [I|[I|[I|[I|[I|[I|I]]]]]].
    7: { destruct (has_qattrs x qa I N) as (k & v & Iv & S). eapply has_field; [|exact S]. right. apply in_app_iff. left. exact Iv. }
    all: destruct qa as [q1 q2 q3 q4]; cbn [t_qattrs app].
    + at_field 5. here.
    + at_field 6. here.
    + at_field 7. here.
    + at_field 8. destruct gb as [g|]; [|now elim I]. cbn [t_opt]. apply has_some. now apply has_groupby.
    + at_field 9. here.
    + at_field 11. apply in_concat in I as (l & Il & Ix). apply in_map_iff in Il as ([n w] & <- & Iw). cbn [snd] in Ix.
      destruct (has_window x w Ix N) as (c & Ic & S). destruct windows as [|w0 ws]; [now elim Iw|]. apply has_some.
      apply (sub_child _ _ _ (t_named treeify attr (n, w))); [now apply in_map|]. cbn [t_named]. exact (sub_child _ _ _ c Ic S).
  - (* NSetQuery *) destruct I as [<-|[<-|I]].
    3: { destruct (has_qattrs x qa I N) as (k & v & Iv & S). eapply has_field; [|exact S]. right. apply in_app_iff. left. exact Iv. }
    all: destruct qa as [q1 q2 q3 q4]; cbn [t_qattrs app].
    + at_field 5. here.
    + at_field 6. here.
  - destruct I as [<-|I].
    2: { destruct (has_qattrs x qa I N) as (k & v & Iv & S). eapply has_field; [|exact S]. right. apply in_app_iff. left. exact Iv. }
    destruct qa as [q1 q2 q3 q4]; cbn [t_qattrs app]. at_field 5. here.
  - apply in_app_iff in I. destruct I as [I|I].
    2: { destruct (has_qattrs x qa I N) as (k & v & Iv & S). eapply has_field; [|exact S]. right. apply in_app_iff. left. exact Iv. }
    destruct qa as [q1 q2 q3 q4]; cbn [t_qattrs app]. at_field 5. here.
  - (* NJoin *) destruct I as [<-|[<-|I]]; [at_field 0; here|at_field 1; here|].
    destruct crit as [c|]; [|now elim I]. at_field 2. apply has_some. at_field 2. cbn [t_opt]. apply has_some.
    destruct c as [cols|y]; cbn [jcrit_kids] in I; [now elim I|]. destruct I as [<-|[]]. cbn [t_crit]. at_field 0. here.
Qed.
Theorem C57_parts e x : built e -> part x e -> x <> NNone -> subtree (treeify x) (treeify e).
Proof.
  intros B P N. induction P as [|y e I P IH]; [constructor|].
  pose proof (parts_built e B) as K. rewrite Forall_forall in K. specialize (IH (K y I)).
  apply (sub_trans _ _ _ IH). apply kid_subtree; [exact B|exact I|]. intros ->. inversion P as [E|? ? J _]; [now apply N|elim J].
Qed.
Print Assumptions C57_parts.

(** * The command

    It never draws a type, and there is no tree of an expression that is read as
    nothing. *)
Theorem C57_types en s x : format en CType s = Ok x -> tree_command en CType s = Err AttributeError.
Proof.
  unfold format, tree_command. destruct (get_sql_object en CType s) as [[e|t]|] eqn:G; cbn [bind]; [|intro H|discriminate].
  - unfold get_sql_object in G. destruct (type_from_sql s); discriminate G.
  - cbn [object_text] in H. cbn [treeify_object]. rewrite H. reflexivity.
Qed.
Print Assumptions C57_types.
Theorem C57_expression en s e : expression_from_sql en s = Ok e ->
  tree_command en CExpression s = (if is_none e then Err AttributeError else Ok (treeify e)).
Proof.
  intros H. unfold tree_command, get_sql_object. rewrite H. cbn [bind treeify_object].
  destruct (is_none e) eqn:N; [destruct e; try discriminate N; reflexivity|].
  assert (B : branching (treeify e)) by (apply treeify_branching; intros ->; discriminate N).
  destruct (treeify e); [elim B|reflexivity].
Qed.
Print Assumptions C57_expression.
Theorem C57_same_tree en s s' a b t : expression_from_sql en s = Ok a -> expression_from_sql en s' = Ok b ->
  built a -> built b -> shown a -> shown b ->
  tree_command en CExpression s = Ok t -> tree_command en CExpression s' = Ok t -> a = b.
Proof.
  intros A B Ba Bb Sa Sb T T'. rewrite (C57_expression _ _ _ A) in T. rewrite (C57_expression _ _ _ B) in T'.
  destruct (is_none a); [discriminate T|]. destruct (is_none b); [discriminate T'|].
  apply C57_faithful; [assumption..|]. congruence.
Qed.
Print Assumptions C57_same_tree.

(** * Cases *)
Lemma shown_dec n e : (fix go n e {struct n} : bool :=
    match n with
    | O => false
    | S n => (negb (is_none e) && match e with
              | NLit LNone _ => true
              | NLit (LBool _) t => String.eqb (type_name t) "BOOLEAN"
              | NLit (LInt _) t => String.eqb (type_name t) "INTEGER" || String.eqb (type_name t) "BIGINT"
              | NLit (LDec _) t => String.eqb (type_name t) "DECIMAL"
              | NLit (LStr _) t => String.eqb (type_name t) "VARCHAR" || String.eqb (type_name t) "CHAR"
              | NLit (LFloat _) t => String.eqb (type_name t) "DOUBLE"
              | _ => true end && forallb (go n) (kids e))%bool
    end) n e = true -> shown e.
Proof.
  revert e. induction n as [|n IH]; intros e H; [discriminate H|].
  apply andb_true_iff in H as [H K]. apply andb_true_iff in H as [N L]. constructor.
  - intros ->. discriminate N.
  - intros l t ->. destruct l; cbn [literal_type]; try exact Logic.I; rewrite ?orb_true_iff, ?String.eqb_eq in L; exact L.
  - rewrite forallb_forall in K. apply Forall_forall. intros x I. apply IH. now apply K.
Qed.
Ltac is_shown := apply (shown_dec 8); vm_compute; reflexivity.
Definition counted : node :=
  NBin BAdd (NFunc FCount [NField "x" (TRStr "t") unknown] (mkFopts [] (Some (NUn UIsNull (column "y"))) None false))
    (NLit (LDec (mkDec false 150 (-2))) (TDecimal 3 2)).
Example C57_case_command :
  built counted /\ shown counted
  /\ expression_from_sql bare_env "COUNT(t.x) FILTER (WHERE y IS NULL) + 1.50" = Ok counted
  /\ tree_command bare_env CExpression "count(t . ""x"") filter (where y IS NULL) + 1.50"
     = Ok (Tree "Add"
         [Tree "data_type" [Leaf "DECIMAL(21,2)"];
          Tree "left" [Tree "Count"
            [Tree "data_type" [Leaf "BIGINT"];
             Tree "filter_" [Tree "IsNull" [Tree "data_type" [Leaf "BOOLEAN"];
               Tree "value" [Tree "Field" [Tree "data_type" [Leaf "UNKNOWN"]; Tree "name" [Leaf "y"]]]]];
             Tree "value" [Tree "Field" [Tree "data_type" [Leaf "UNKNOWN"]; Tree "name" [Leaf "x"];
                                         Tree "table" [Leaf "t"]]]]];
          Tree "right" [Tree "Literal" [Tree "data_type" [Leaf "DECIMAL(3,2)"]; Tree "value" [Leaf "1.50"]]]]).
Proof.
  split; [eexists; vm_compute; reflexivity|]. split; [is_shown|]. split; vm_compute; reflexivity.
Qed.
(** The tree tells 1.50 from 1.5, DISTINCT from ALL and a window that is named from
    one that is not. *)
Definition windowed (d : bool) (w : option string) : node :=
  NSelect [NFunc FSum [column "x"] (mkFopts [] None (Some (mkWindow w [] [column "y"] FTRows (BBounded false (NLit (LInt 2) (TSimple SInteger))) BCurrent)) false)]
    (Some (NTable "t" None None)) None (Some (mkG [GSet []; GCube [column "z"]] d)) None d [("w", default_window)] no_qattrs.
Example C57_case_query : forall d w, built (windowed d w) /\ shown (windowed d w).
Proof. intros d w. split; [eexists; cbn; reflexivity|]. apply (shown_dec 8). destruct d; vm_compute; reflexivity. Qed.
Example C57_case_differ :
  treeify (windowed true None) <> treeify (windowed false None) /\ treeify (windowed true None) <> treeify (windowed true (Some "w"))
  /\ treeify counted
     <> treeify (NBin BAdd (NFunc FCount [NField "x" (TRStr "t") unknown] (mkFopts [] (Some (NUn UIsNull (column "y"))) None false))
                  (NLit (LDec (mkDec false 15 (-1))) (TDecimal 3 2))).
Proof.
  split; [|split]; intros E; vm_compute in E; discriminate E.
Qed.
Example C57_case_part : part (column "z") (windowed true None) /\ part (NTable "t" None None) (windowed true None).
Proof.
  split.
  - apply (part_kid _ (column "z")); [|constructor]. cbn. tauto.
  - apply (part_kid _ (NTable "t" None None)); [|constructor]. cbn. tauto.
Qed.
Example C57_case_type : format bare_env CType "array(BIGINT)" = Ok "ARRAY(BIGINT)" /\ tree_command bare_env CType "array(BIGINT)" = Err AttributeError.
Proof. split; vm_compute; reflexivity. Qed.
(** Without the conditions it is false: a literal that is built by hand with a
    data type of its own, and a column whose table is [None]. *)
Theorem C57_any_refuted : exists a b, built a /\ built b /\ treeify a = treeify b /\ a <> b.
Proof.
  exists (NLit (LInt 1) (TSimple SBigint)), (NLit (LStr "1") (TSimple SBigint)).
  split; [eexists; reflexivity|]. split; [eexists; reflexivity|]. split; [reflexivity|discriminate].
Qed.
Print Assumptions C57_any_refuted.
