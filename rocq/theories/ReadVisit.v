(** Everything that is read looks as ReadShape.v says (for C58), by going through the parser
    once. *)
From Coq Require Import String Ascii List Bool Arith NArith ZArith Lia.
From Verif Require Import PyStr StrFacts Types Inference Lexer LexFacts TypeParser TypeFacts TypeRoundTrip TypeObjects
  Functions Ast Sql Walk Parser Tokens TextFacts NodeFacts Good PropertiesLambda PropertiesResolve
  Floats UniText ReadTokens ReadTypes ParseForms ReadShape FloatFacts.
Import ListNotations.
Open Scope nat_scope.
Open Scope string_scope.
Open Scope list_scope.

Notation built := PropertiesResolve.built.

(** * Results *)
Definition okP {A} (P : A -> Prop) (v : result A) : Prop := forall x, v = Ok x -> P x.
Lemma okP_ok {A} (P : A -> Prop) x : P x -> okP P (Ok x).
Proof. intros H y E. now injection E as <-. Qed.
Lemma okP_err {A} (P : A -> Prop) e : okP P (Err e).
Proof. intros y E. discriminate. Qed.
Lemma okP_bind {A B} (Q : A -> Prop) (P : B -> Prop) x f :
  okP Q x -> (forall a, Q a -> okP P (f a)) -> okP P (bind x f).
Proof. intros H K b E. destruct x as [a|]; [|discriminate]. cbn [bind] in E. exact (K a (H a eq_refl) b E). Qed.

(** Built, well formed outside all lambdas, and of a kind. *)
Definition have {Lx : lexis} (en : env) (kind : node -> bool) (e : node) : Prop :=
  built e /\ well en [] e /\ kind e = true.
Lemma have_mk {Lx : lexis} en kind e :
  well_here en [] e -> Forall (well en (scope [] e)) (kids e) -> kind e = true -> okP (have en kind) (mk e).
Proof.
  intros W F K x H. apply mk_ok in H as [-> B]. split; [exact B|]. split; [now constructor|exact K].
Qed.
Lemma have_kind {Lx : lexis} en (k k' : node -> bool) e : (k e = true -> k' e = true) -> have en k e -> have en k' e.
Proof. intros H (B & W & K). split; [exact B|]. split; [exact W|now apply H]. Qed.
Lemma have_all {Lx : lexis} en k l : Forall (have en k) l -> all k l.
Proof. apply Forall_impl. intros e H. apply H. Qed.
Lemma have_well {Lx : lexis} en k l : Forall (have en k) l -> Forall (well en []) l.
Proof. apply Forall_impl. intros e H. apply H. Qed.
Lemma have_built {Lx : lexis} en k l : Forall (have en k) l -> Forall built l.
Proof. apply Forall_impl. intros e H. apply H. Qed.

Lemma term_selected e : is_term e = true -> is_selected e = true.
Proof. unfold is_selected. intros ->. reflexivity. Qed.
Lemma select_term e : is_select e = true -> is_term e = true.
Proof. unfold is_select, is_term. destruct e; cbn; auto. Qed.
Lemma select_source e : is_select e = true -> is_source e = true.
Proof. unfold is_source. intros ->. reflexivity. Qed.

(** Parts of clauses. *)
Definition ord_ok {Lx : lexis} (en : env) (o : order node) : Prop := have en is_term (o_value o).
Definition win_ok {Lx : lexis} (en : env) (w : window node) : Prop :=
  opt_name (w_parent w) /\ Forall (have en is_term) (window_kids w).
Definition bnd_ok {Lx : lexis} (en : env) (b : bound node) : Prop := Forall (have en is_term) (bound_kids b).
Definition grp_ok {Lx : lexis} (en : env) (g : group node) : Prop := Forall (have en is_term) (group_kids g).
Definition named_ok {Lx : lexis} (en : env) (nw : string * window node) : Prop := name_text (fst nw) /\ win_ok en (snd nw).
Definition some_of {A} (P : A -> Prop) (l : list A) : Prop := l <> [] /\ Forall P l.
Definition opt_all' {A} (P : A -> Prop) (o : option A) : Prop := match o with None => True | Some x => P x end.

Lemma ord_list {Lx : lexis} en l : Forall (ord_ok en) l -> Forall (have en is_term) (map o_value l).
Proof. intro H. now apply Forall_map. Qed.

(** Splitting and composing statements about parts. *)
Ltac hv :=
  repeat match goal with
    | H : have _ _ _ /\ _ |- _ => destruct H
    | H : some_of _ _ |- _ => destruct H
    | H : have _ _ ?e |- _ =>
        let B := fresh "B" in let W := fresh "W" in let K := fresh "K" in destruct H as (B & W & K)
    end.
Ltac fa :=
  repeat match goal with
    | |- Forall _ [] => constructor
    | |- Forall _ (_ :: _) => constructor
    | |- Forall _ (_ ++ _) => apply Forall_app; split
    | |- all _ [] => constructor
    | |- all _ (_ :: _) => constructor
    | |- all _ (_ ++ _) => apply Forall_app; split
    | H : Forall (have ?en ?k) ?l |- Forall (well ?en []) ?l => exact (have_well en k l H)
    | H : Forall (have ?en ?k) ?l |- all ?k ?l => exact (have_all en k l H)
    | |- _ /\ _ => split
    | |- _ => assumption
    | |- True => exact Logic.I
    end.
Ltac bnd := eapply okP_bind; [eassumption|]; intros ? ?; cbn beta.

(** * Visitors *)
Lemma v_arith_ok {Lx : lexis} en op a b : okP (have en is_term) a -> okP (have en is_term) b -> okP (have en is_term) (v_arith op a b).
Proof.
  intros A B. unfold v_arith. bnd. bnd. hv.
  destruct a0; try apply okP_err; apply have_mk; cbn [well_here kids scope]; fa; reflexivity.
Qed.
Lemma v_compare_ok {Lx : lexis} en op a b : okP (have en is_term) a -> okP (have en is_term) b -> okP (have en is_term) (v_compare op a b).
Proof.
  intros A B. unfold v_compare. bnd. bnd. destruct op as [op|]; [|apply okP_err]. cbn [bind]. hv.
  assert (X : okP (have en is_term) (mk (NBin op a0 a1))) by (apply have_mk; cbn [well_here kids scope]; fa; reflexivity).
  destruct a0; try exact X. destruct a1; apply okP_err.
Qed.
Lemma v_logic_ok {Lx : lexis} en op a b : okP (have en is_term) a -> okP (have en is_term) b -> okP (have en is_term) (v_logic op a b).
Proof. intros A B. unfold v_logic. bnd. bnd. hv. apply have_mk; cbn [well_here kids scope]; fa; reflexivity. Qed.
Lemma v_unary_ok {Lx : lexis} en op a : okP (have en is_term) a -> okP (have en is_term) (v_unary op a).
Proof.
  intros A. unfold v_unary. bnd. hv.
  destruct a0; try apply okP_err; apply have_mk; cbn [well_here kids scope]; fa; reflexivity.
Qed.
Lemma no_fopts_read : fopts_read no_fopts.
Proof. unfold fopts_read, no_fopts. cbn. repeat split; constructor. Qed.
Lemma v_negate_ok {Lx : lexis} en neg a : okP (have en is_term) a -> okP (have en is_term) (v_negate neg a).
Proof.
  intros A. unfold v_negate. bnd. destruct neg; [|now apply okP_ok]. hv.
  apply have_mk; cbn [well_here kids scope]; fa; reflexivity.
Qed.
Lemma opt_node_is {Lx : lexis} en k x : have en k x -> opt_is k (opt_node x) /\ Forall (have en k) (opt_kids (opt_node x)).
Proof.
  intro H. pose proof H as (_ & _ & K). destruct x; cbn [opt_node opt_is opt_kids]; split; try exact Logic.I; try constructor; auto.
Qed.

Lemma uni_any {Lx : lexis} v : uni = true -> okP quoted_text_in v.
Proof. intros U x _ F. congruence. Qed.
Lemma p_string_ok {Lx : lexis} ts s r :
  Forall tok_ok ts -> p_string ts = Some (s, r) -> okP quoted_text_in s /\ Forall tok_ok r.
Proof.
  intros F H. destruct F as [|t ts Ht F]; [discriminate|]. destruct t; cbn [p_string] in H; try discriminate.
  - injection H as <- <-. split; [|exact F]. apply okP_ok. intros _. destruct Ht as (b & D & ->). now apply quoted_text.
  - assert (U : forall v, okP quoted_text_in v) by (intro v; now apply uni_any).
    destruct F as [|t1 ts H1 F]; [injection H as <- <-; split; [apply U|constructor]|].
    assert (F1 : Forall tok_ok (t1 :: ts)) by now constructor.
    destruct t1; try (injection H as <- <-; split; [apply U|exact F1]).
    destruct F as [|t2 ts H2 F]; [injection H as <- <-; split; [apply U|exact F1]|].
    destruct t2; try (injection H as <- <-; split; [apply U|exact F1]).
    destruct (String.eqb k "UESCAPE"); injection H as <- <-; (split; [apply U|]); [exact F|exact F1].
Qed.

Lemma split_dot_digits i f : digits_only i -> split_dot (i ++ "." ++ f) = (i, Some f).
Proof.
  unfold digits_only. induction i as [|c i IH]; [reflexivity|]. cbn [str_forall append split_dot].
  intros [H1 H2]%andb_true_iff. destruct (Ascii.eqb_spec c ".") as [->|]; [discriminate H1|].
  specialize (IH H2). cbn [append] in IH. now rewrite IH.
Qed.
Lemma v_number_ok {Lx : lexis} en neg t v : tok_ok t -> v_number neg t = Some v -> okP (have en is_term) v.
Proof.
  intros T H. destruct t; cbn [v_number] in H; try discriminate.
  - injection H as <-. apply have_mk; cbn [well_here kids scope lit_read]; fa; reflexivity.
  - injection H as <-. destruct T as (i & f & -> & Di & Df).
    assert (E : dec_of_text (i ++ "." ++ f)%string = mkDec false (N_of_str (i ++ f)) (- Z.of_nat (String.length f))).
    { unfold dec_of_text. now rewrite split_dot_digits. }
    rewrite E. destruct (infer_decimal _) as [t|] eqn:I; [|apply okP_err]. cbn [bind].
    apply have_mk; cbn [well_here kids scope lit_read]; fa; [|reflexivity].
    exists (N_of_str (i ++ f)), (String.length f). split; [exact I|]. destruct neg; auto.
  - injection H as <-. apply have_mk; cbn [well_here kids scope lit_read]; fa; try reflexivity. apply float_text_ok.
Qed.

(** ** Intervals *)
Lemma lstrip_other c q s : c <> q -> doubled q s -> doubled q (lstrip c s).
Proof.
  intros N. rewrite <- !paired_doubled. induction s as [|d s IH]; [trivial|]. intros P. cbn [lstrip].
  destruct (Ascii.eqb_spec c d) as [->|]; [|exact P]. cbn [paired] in P.
  destruct (Ascii.eqb_spec d q) as [->|]; [contradiction|]. now apply IH.
Qed.
Lemma v_interval_ok {Lx : lexis} en minus s f t :
  okP quoted_text_in s -> match t with None => True | Some x => In (upper x) interval_fields end ->
  okP (have en is_term) (v_interval minus s f t).
Proof.
  intros S T. unfold v_interval. eapply okP_bind; [exact S|]. intros v Dv. cbn zeta.
  match goal with |- okP _ (mk (NInterval ?w f t)) => assert (W : uni = false -> doubled squote w) end.
  { intro U. destruct (Dv U) as [_ D]. set (v1 := if starts "+"%char v then lstrip "+"%char v else v).
    assert (D1 : doubled squote v1) by (subst v1; destruct (starts "+"%char v); [now apply lstrip_other|exact D]).
    destruct minus; [|exact D1]. destruct (starts "-"%char v1); [now apply lstrip_other|].
    apply paired_doubled in D1. apply paired_doubled. exact D1. }
  intros x H. apply mk_ok in H as [-> B]. split; [exact B|]. split; [|reflexivity].
  constructor; [|constructor]. cbn [well_here]. split; [exact W|]. split; [|exact T].
  destruct B as [ty B]. cbn [check] in B. unfold interval_fields.
  destruct (String.eqb_spec f "YEAR") as [->|]; [now left|].
  destruct (String.eqb_spec f "MONTH") as [->|]; [right; now left|]. cbn [orb] in B.
  destruct (mem f ["DAY"; "HOUR"; "MINUTE"; "SECOND"]) eqn:M; [|discriminate].
  right. right. now apply mem_in.
Qed.

(** ** Columns of columns *)
Lemma well_inv {Lx : lexis} en vs e : well en vs e -> well_here en vs e /\ Forall (well en (scope vs e)) (kids e).
Proof. intro H. inversion H; subst. auto. Qed.
Lemma v_dereference_ok {Lx : lexis} en b i : okP (have en is_term) b -> id_ok i -> okP (have en is_term) (v_dereference b i).
Proof.
  intros B I. unfold v_dereference. bnd.
  assert (X : forall f, name_text f -> is_field a = false -> is_none a = false ->
            okP (have en is_term) (mk (NField f (TRVal a) unknown))).
  { intros f N F Z. hv. apply have_mk; cbn [well_here kids scope tref_kids tref_read]; fa; reflexivity. }
  assert (Y : forall (k : string -> result node), (forall f, name_text f -> okP (have en is_term) (k f)) ->
            okP (have en is_term) (let* f := visit_ident i in k f)).
  { intros k Hk. eapply okP_bind; [exact I|exact Hk]. }
  destruct a; try (apply Y; intros ? N; apply X; [exact N|reflexivity|reflexivity]).
  - apply Y. intros f N. apply have_mk; cbn [well_here kids scope tref_kids tref_read]; fa; try reflexivity. intros [].
  - hv. apply well_inv in W as [W _]. cbn [well_here] in W. destruct W as (_ & N & _).
    destruct (py_assert _); [|apply okP_err]. cbn [bind]. apply Y. intros f Nf.
    apply have_mk; cbn [well_here kids scope tref_kids tref_read]; fa; reflexivity.
Qed.

(** ** Lambdas *)
Lemma class_term a b : class a = class b -> is_term a = is_term b.
Proof. destruct a, b; intro H; try discriminate H; reflexivity. Qed.
Lemma class_selected a b : class a = class b -> is_selected a = is_selected b.
Proof. destruct a, b; intro H; try discriminate H; reflexivity. Qed.
Lemma class_select a b : class a = class b -> is_select a = is_select b.
Proof. destruct a, b; intro H; try discriminate H; reflexivity. Qed.
Lemma class_source a b : class a = class b -> is_source a = is_source b.
Proof. destruct a, b; intro H; try discriminate H; reflexivity. Qed.
Lemma class_star a b : class a = class b -> is_star a = is_star b.
Proof. destruct a, b; intro H; try discriminate H; reflexivity. Qed.
Lemma class_none a b : class a = class b -> is_none a = is_none b.
Proof. destruct a, b; intro H; try discriminate H; reflexivity. Qed.
Lemma class_field a b : class a = class b -> is_field a = is_field b.
Proof. destruct a, b; intro H; try discriminate H; reflexivity. Qed.

Lemma param_dec vs e : is_param vs e \/ ~ is_param vs e.
Proof.
  destruct e; try (right; intros (n & t' & X & _); discriminate X).
  destruct table; try (right; intros (n & t' & X & _); discriminate X).
  destruct (in_dec string_dec name vs) as [I|I]; [left; now exists name, t|right].
  intros (n & t' & X & Hn). injection X as -> ->. now apply I.
Qed.
Lemma in_mem x l : In x l -> mem x l = true.
Proof. intro H. unfold mem. apply existsb_exists. exists x. split; [exact H|apply String.eqb_refl]. Qed.
Lemma subst_cases vs e e' : subst vs e = Ok e' ->
  (exists n t, e = NField n TRNone t /\ In n vs /\ e' = NVar n)
  \/ (~ is_param vs e /\ node_each (subst vs) e = Ok e' /\ class e' = class e).
Proof.
  intros H. destruct (param_dec vs e) as [(n & t & -> & I)|N].
  - left. exists n, t. cbn [subst] in H. rewrite (in_mem _ _ I) in H. injection H as <-. auto.
  - right. pose proof (subst_step _ _ _ N H) as S. split; [exact N|]. split; [exact S|]. exact (node_class _ _ _ S).
Qed.
Definition keeps (vs : list string) (k : node -> bool) : Prop :=
  forall a b, subst vs a = Ok b -> k a = true -> k b = true.
Ltac keeps_class L :=
  intros a b H K; destruct (subst_cases _ _ _ H) as [(n & t & -> & _ & ->)|(_ & _ & C)];
  [first [reflexivity | discriminate K] | now rewrite (L _ _ C)].
Lemma keeps_term vs : keeps vs is_term.
Proof. keeps_class class_term. Qed.
Lemma keeps_selected vs : keeps vs is_selected.
Proof. keeps_class class_selected. Qed.
Lemma keeps_select vs : keeps vs is_select.
Proof. keeps_class class_select. Qed.
Lemma keeps_source vs : keeps vs is_source.
Proof. keeps_class class_source. Qed.
Lemma keeps_star vs : keeps vs is_star.
Proof. keeps_class class_star. Qed.
Lemma keeps_some vs a b : subst vs a = Ok b -> is_none a = false -> is_none b = false.
Proof.
  intros H K; destruct (subst_cases _ _ _ H) as [(n & t & -> & _ & ->)|(_ & _ & C)];
  [reflexivity|now rewrite (class_none _ _ C)].
Qed.
Lemma keeps_nofield vs a b : subst vs a = Ok b -> is_field a = false -> is_field b = false.
Proof.
  intros H K; destruct (subst_cases _ _ _ H) as [(n & t & -> & _ & ->)|(_ & _ & C)];
  [reflexivity|now rewrite (class_field _ _ C)].
Qed.
Lemma keeps_named vs : keeps vs is_named.
Proof.
  intros a b H K. destruct a; try discriminate K. cbn [subst node_each] in H. unbind.
  cbn [is_named] in *. eapply keeps_select; eassumption.
Qed.
Lemma keeps_all vs k l l' : keeps vs k -> Forall2 (fun a b => subst vs a = Ok b) l l' -> all k l -> all k l'.
Proof.
  intros K F. induction F as [|a b l l' H F IH]; intro A; [constructor|]. inversion A; subst.
  constructor; [eapply K; eassumption|now apply IH].
Qed.
Lemma each_keeps vs k l l' : keeps vs k -> each (subst vs) l = Ok l' -> all k l -> all k l'.
Proof. intros K E. apply (keeps_all vs); [exact K|exact (t_parts trav_nodes _ _ _ E)]. Qed.
Lemma each_nonempty {A B} (f : A -> result B) l l' : each f l = Ok l' -> l <> [] -> l' <> [].
Proof. destruct l; [easy|]. cbn [each]. intro H. unbind. discriminate. Qed.
Lemma opt_keeps vs k o o' : keeps vs k -> opt_map (subst vs) o = Ok o' -> opt_is k o -> opt_is k o'.
Proof.
  intros K E H. destruct o as [x|]; cbn [opt_map] in E; unbind; [|trivial]. destruct H as [H1 H2].
  split; [eapply K; eassumption|eapply keeps_some; eassumption].
Qed.
Lemma orders_keeps vs l l' : each (order_map (subst vs)) l = Ok l' -> all is_term (map o_value l) -> all is_term (map o_value l').
Proof. intro E. apply keeps_all with (vs := vs); [apply keeps_term|exact (t_parts trav_orders _ _ _ E)]. Qed.
Lemma window_keeps vs w w' : window_map (subst vs) w = Ok w' -> window_read w -> window_read w'.
Proof.
  intros E [P K]. split.
  - destruct w. cbn [window_map] in E. unbind. exact P.
  - revert K. apply keeps_all with (vs := vs); [apply keeps_term|exact (t_parts trav_window _ _ _ E)].
Qed.
Lemma fopts_keeps vs x x' : fopts_map (subst vs) x = Ok x' -> fopts_read x -> fopts_read x'.
Proof.
  intros E (K & F & P). split; [|split].
  - revert K. apply keeps_all with (vs := vs); [apply keeps_term|exact (t_parts trav_fopts _ _ _ E)].
  - destruct x. cbn [fopts_map] in E. unbind. cbn [Ast.fo_filter] in *. eapply opt_keeps; [apply keeps_term|eassumption..].
  - destruct x as [ob fi wi ig]. cbn [fopts_map] in E. unbind. cbn [Ast.fo_window Ast.fo_ignore] in *.
    destruct wi as [w|]; cbn [opt_map] in *; unbind; [|first [exact P | reflexivity]]. destruct w. cbn [window_map] in *. unbind. exact P.
Qed.
Lemma qattrs_keeps vs q q' : qattrs_map (subst vs) q = Ok q' -> qattrs_read q -> qattrs_read q'.
Proof.
  intros E (A & B & C & D). destruct q as [wi ob off lim]. cbn [qattrs_map] in E. unbind.
  unfold qattrs_read. cbn [Ast.q_with Ast.q_orderby Ast.q_offset Ast.q_limit] in *.
  split; [eapply each_keeps; [apply keeps_named|eassumption..]|].
  split; [eapply orders_keeps; eassumption|]. auto.
Qed.
Lemma groupby_keeps vs g g' : groupby_map (subst vs) g = Ok g' -> groupby_read g -> groupby_read g'.
Proof.
  intros E [A B]. split.
  - destruct g. cbn [groupby_map] in E. unbind. cbn [Ast.g_groups] in *. eapply each_nonempty; eassumption.
  - revert B. apply keeps_all with (vs := vs); [apply keeps_term|exact (t_parts trav_groupby _ _ _ E)].
Qed.
Lemma join_keeps vs jt n c c' : opt_map (jcrit_map (subst vs)) c = Ok c' -> join_read jt n c -> join_read jt n c'.
Proof.
  intros E H. destruct c as [[cols|x]|]; cbn [opt_map jcrit_map bind] in E; unbind; trivial.
  cbn [join_read] in *. eapply keeps_term; eassumption.
Qed.
Lemma tref_keeps vs t t' : tref_map (subst vs) t = Ok t' -> tref_read t -> tref_read t'.
Proof.
  intros E H. destruct t as [|s|v]; cbn [tref_map] in E; unbind; trivial. cbn [tref_read] in *. destruct H as (A & B & C).
  split; [eapply keeps_term; eassumption|]. split; [eapply keeps_nofield; eassumption|eapply keeps_some; eassumption].
Qed.
Lemma branches_keeps vs bs bs' : each (branch_map (subst vs)) bs = Ok bs' ->
  Forall (fun cv => is_term (fst cv) = true /\ is_term (snd cv) = true) bs ->
  Forall (fun cv => is_term (fst cv) = true /\ is_term (snd cv) = true) bs'.
Proof.
  revert bs'. induction bs as [|[c x] bs IH]; intros bs' E F; cbn [each] in E; unbind; [constructor|].
  inversion F as [|y z [H1 H2] F']; subst. cbn [branch_map] in *. unbind. cbn [fst snd] in *.
  constructor; [cbn [fst snd]; split; eapply keeps_term; eassumption|now apply IH].
Qed.
Lemma windows_keeps vs ws ws' : each (named_map (subst vs)) ws = Ok ws' ->
  map fst ws' = map fst ws
  /\ (Forall (fun nw => name_text (fst nw) /\ window_read (snd nw)) ws ->
      Forall (fun nw => name_text (fst nw) /\ window_read (snd nw)) ws').
Proof.
  revert ws'. induction ws as [|[n w] ws IH]; intros ws' E; cbn [each] in E; unbind; [split; [reflexivity|trivial]|].
  cbn [named_map] in *. unbind.
  match goal with S : each (named_map _) _ = Ok _ |- _ => destruct (IH _ S) as [A B] end. split; [cbn [map fst]; now rewrite A|].
  intro F. inversion F as [|y z [H1 H2] F']; subst. cbn [fst snd] in *. constructor; [|now apply B].
  split; [exact H1|]. cbn [snd]. eapply window_keeps; eassumption.
Qed.
Lemma scope_keeps vs us us' e e' : node_each (subst vs) e = Ok e' ->
  (forall n, In n us' <-> In n vs \/ In n us) -> forall n, In n (scope us' e') <-> In n vs \/ In n (scope us e).
Proof.
  intros E H n. destruct e; cbn [node_each] in E; unbind; cbn [scope]; try exact (H n).
  rewrite !in_app_iff, H. tauto.
Qed.
Lemma here_keeps {Lx : lexis} en vs us us' e e' :
  ~ is_param vs e -> node_each (subst vs) e = Ok e' ->
  (forall n, In n us' <-> In n vs \/ In n us) -> well_here en us e -> well_here en us' e'.
Proof.
  intros N E H W.
  assert (KT := keeps_term vs). assert (KS := keeps_selected vs). assert (KQ := keeps_select vs).
  assert (KR := keeps_source vs).
  destruct e; cbn [node_each] in E; unbind; cbn [well_here] in *;
    try exact W;
    try solve [repeat match goal with
           | W : _ /\ _ |- _ => destruct W
           | |- _ /\ _ => split
           | |- _ => assumption
           | S : subst vs ?a = Ok ?b |- is_term ?b = true => exact (KT _ _ S ltac:(assumption))
           | S : subst vs ?a = Ok ?b |- is_select ?b = true => exact (KQ _ _ S ltac:(assumption))
           | S : subst vs ?a = Ok ?b |- is_source ?b = true => exact (KR _ _ S ltac:(assumption))
           | S : subst vs ?a = Ok ?b |- is_star ?b = true => exact (keeps_star vs _ _ S ltac:(assumption))
           | S : each (subst vs) ?a = Ok ?b |- ?b <> [] => exact (each_nonempty _ _ _ S ltac:(assumption))
           | S : each (subst vs) ?a = Ok ?b |- all is_term ?b => exact (each_keeps vs _ _ _ KT S ltac:(assumption))
           | S : opt_map (subst vs) ?a = Ok ?b |- opt_is is_term ?b => exact (opt_keeps vs _ _ _ KT S ltac:(assumption))
           | S : each (order_map _) ?a = Ok ?b |- all is_term (map o_value ?b) => exact (orders_keeps vs _ _ S ltac:(assumption))
           | S : each (branch_map _) ?a = Ok ?b |- Forall _ ?b => exact (branches_keeps vs _ _ S ltac:(assumption))
           | S : qattrs_map _ ?a = Ok ?b |- qattrs_read ?b => exact (qattrs_keeps vs _ _ S ltac:(assumption))
           | S : opt_map (jcrit_map _) ?a = Ok ?b |- join_read _ _ ?b => exact (join_keeps vs _ _ _ _ S ltac:(assumption))
           | S : tref_map _ ?a = Ok ?b |- tref_read ?b => exact (tref_keeps vs _ _ S ltac:(assumption))
           end].
  - destruct W as (T & Nn & R & F). split; [exact T|]. split; [exact Nn|]. split; [eapply tref_keeps; eassumption|].
    destruct table; cbn [tref_map] in *; unbind; trivial.
    rewrite H. intros [I|I]; [|contradiction]. apply N. do 2 eexists. split; [reflexivity|exact I].
  - apply H. now right.
  - destruct W as (A & B & C & D). split; [exact A|]. split; [|split].
    + destruct B as [B|(tr & ->)]; [left; eapply each_keeps; eassumption|right].
      destruct tr; cbn [each subst bind] in E1; unbind; cbn [bind] in *; unbind; eauto.
    + eapply fopts_keeps; eassumption.
    + intro Ef. specialize (D Ef). clear - D E1. intro L. apply D.
      destruct args as [|x [|y l]]; cbn [each] in E1; unbind; [exact L|reflexivity|discriminate L].
  - destruct W as (A & B & C & D & F & G & I & J).
    split; [eapply each_keeps; eassumption|].
    split; [eapply opt_keeps; eassumption|]. split; [eapply opt_keeps; eassumption|].
    split; [destruct gb; cbn [opt_map] in *; unbind; [eapply groupby_keeps; eassumption|exact Logic.I]|].
    split; [eapply opt_keeps; eassumption|].
    match goal with S : each (named_map _) _ = Ok _ |- _ => destruct (windows_keeps _ _ _ S) as [X Y] end.
    split; [now apply Y|]. split; [now rewrite X|]. eapply qattrs_keeps; eassumption.
  - destruct W as (A & B & C). split; [eapply KR; eassumption|]. split; [eapply KR; eassumption|]. eapply join_keeps; eassumption.
Qed.
Lemma subst_well {Lx : lexis} en vs e : forall us us' e',
  (forall n, In n us' <-> In n vs \/ In n us) -> well en us e -> subst vs e = Ok e' -> well en us' e'.
Proof.
  induction e as [e IH] using kids_ind. intros us us' e' H W S. apply well_inv in W as [W F].
  destruct (subst_cases _ _ _ S) as [(n & t & -> & I & ->)|(N & E & C)].
  - constructor; [|constructor]. cbn [well_here]. apply H. now left.
  - constructor; [eapply here_keeps; eassumption|].
    pose proof (scope_keeps _ _ _ _ _ E H) as H'. pose proof (t_parts trav_node _ _ _ E) as P.
    clear - IH H' P F. revert F IH. induction P as [|a b l l' Hab P IHP]; intros F IH; [constructor|].
    inversion F; subst. constructor.
    + eapply IH; [now left|exact H'|assumption..].
    + apply IHP; [assumption|]. intros x Hx. apply IH. now right.
Qed.
Lemma each_idents l ns : Forall id_ok l -> each visit_ident l = Ok ns -> Forall name_text ns.
Proof.
  intro F. revert ns. induction F as [|i l I F IH]; intros ns E; cbn [each] in E; unbind; [constructor|].
  constructor; [now apply I|now apply IH].
Qed.
Lemma v_lambda_ok {Lx : lexis} en l b : Forall id_ok l -> okP (have en is_term) b -> okP (have en is_term) (v_lambda l b).
Proof.
  intros F B. unfold v_lambda. apply okP_bind with (Q := Forall name_text).
  { intros ns E. eapply each_idents; eassumption. }
  intros vs V. bnd. unfold from_generic_expr. intros x Hx.
  apply bind_inv in Hx as (b' & S & Hx). apply mk_ok in Hx as [-> Bt]. hv.
  split; [exact Bt|]. split; [|reflexivity]. constructor.
  - cbn [well_here]. split; [exact V|]. eapply keeps_term; eassumption.
  - cbn [kids scope]. constructor; [|constructor]. rewrite app_nil_r.
    eapply subst_well; [|eassumption|eassumption]. intro n. cbn [In]. tauto.
Qed.

(** ** Calls *)
Definition args_ok {Lx : lexis} (en : env) (l : list node) : Prop :=
  Forall (have en is_term) l \/ exists tr, l = [NStar tr unknown] /\ well en [] (NStar tr unknown).
Definition call_ok {Lx : lexis} (en : env) (c : call) : Prop :=
  opt_all' (okP (win_ok en)) (c_over c) /\ opt_all' (okP (Forall (ord_ok en))) (c_sorts c)
  /\ opt_all' (okP (have en is_term)) (c_filter c) /\ (c_over c = None -> c_null c = None)
  /\ okP (args_ok en) (c_args c).
Definition fo_ok {Lx : lexis} (en : env) (x : fopts node) : Prop :=
  Forall (have en is_term) (fopts_kids x) /\ opt_is is_term (fo_filter x)
  /\ match fo_window x with None => fo_ignore x = false | Some w => opt_name (w_parent w) end.
Lemma args_well {Lx : lexis} en l : args_ok en l -> Forall (well en []) l /\ (all is_term l \/ exists tr, l = [NStar tr unknown]).
Proof.
  intros [H|(tr & -> & W)]; [split; [fa|left; fa]|]. split; [fa|]. right. eauto.
Qed.
Lemma func_ok {Lx : lexis} en f args fo : fn_read en f -> args_ok en args -> fo_ok en fo ->
  (f = FFromUnixtime -> length args <> 1) -> okP (have en is_term) (mk (NFunc f args fo)).
Proof.
  intros F A (K & O & I) L. apply args_well in A as [W A]. apply have_mk; cbn [well_here kids scope]; [|fa|reflexivity].
  split; [exact F|]. split; [exact A|]. split; [|exact L]. split; [fa|]. auto.
Qed.
Lemma from_args_ok {Lx : lexis} en f args kw fo :
  fn_read en f -> args_ok en args -> fo_ok en fo -> okP (have en is_term) (from_args f args kw fo).
Proof.
  intros F A O. unfold from_args. destruct (py_assert _); [|apply okP_err]. cbn [bind].
  destruct (existsb is_none args && _)%bool; [apply okP_err|].
  assert (X : (f = FFromUnixtime -> length args <> 1) -> okP (have en is_term) (mk (NFunc f args fo)))
    by (intro; now apply func_ok).
  destruct f; try (apply X; discriminate).
  - destruct args as [|x1 [|x2 [|x3 [|x4 l]]]]; try (apply X; discriminate).
    apply func_ok; [exact F| |exact O|discriminate]. destruct A as [A|(tr & A & _)]; [|discriminate].
    left. inversion A as [|? ? Ha A1]; subst. inversion A1 as [|? ? Hb A2]; subst. inversion A2; subst. fa.
  - destruct args as [|x1 [|x2 [|x3 [|x4 l]]]]; try apply okP_err; apply X; intros _; discriminate.
Qed.
Lemma seq_opt_ok {A} (P : A -> Prop) o : opt_all' (okP P) o -> okP (opt_all' P) (seq_opt o).
Proof. destruct o as [v|]; cbn [seq_opt opt_all']; [|intros _; now apply okP_ok]. intro H. bnd. now apply okP_ok. Qed.
Lemma v_call_ok {Lx : lexis} en names c : call_ok en c -> okP (have en is_term) (v_call en names c).
Proof.
  intros (Ow & Os & Of & On & Oa). unfold v_call. destruct (v_names names) as [[|n [|? ?]]|]; try apply okP_err.
  cbn [bind]. destruct (names_to_functions en (upper n)) as [f|] eqn:E; [|apply okP_err].
  assert (F : fn_read en f) by (right; right; eauto).
  eapply okP_bind with (Q := fun w => opt_all' (win_ok en) w /\ (w = None -> c_over c = None)).
  { destruct (c_over c) as [w|]; [|now apply okP_ok]. destruct (py_assert _); [|apply okP_err]. cbn [bind opt_all'] in *.
    eapply okP_bind; [exact Ow|]. intros w' Hw. apply okP_ok. split; [exact Hw|discriminate]. }
  intros w [Hw Hn]. eapply okP_bind; [apply seq_opt_ok; exact Os|]. intros ob Hob.
  eapply okP_bind; [apply seq_opt_ok; exact Of|]. intros fi Hfi. eapply okP_bind; [exact Oa|]. intros args Ha.
  cbn zeta. apply from_args_ok; [exact F|exact Ha|].
  assert (Hf : opt_is is_term (match fi with None => None | Some x => opt_node x end)
               /\ Forall (have en is_term) (opt_kids (match fi with None => None | Some x => opt_node x end))).
  { destruct fi as [x|]; [now apply opt_node_is|split; [exact Logic.I|constructor]]. }
  unfold fo_ok. cbn [fopts_kids Ast.fo_filter Ast.fo_window Ast.fo_ignore]. split; [|split].
  - apply Forall_app. split; [destruct ob; [now apply ord_list|constructor]|].
    apply Forall_app. split; [apply Hf|]. destruct w; [apply Hw|constructor].
  - apply Hf.
  - destruct w; [apply Hw|]. rewrite (On (Hn eq_refl)). reflexivity.
Qed.
Lemma no_fopts_ok {Lx : lexis} en : fo_ok en no_fopts.
Proof. split; [constructor|]. split; [exact Logic.I|reflexivity]. Qed.
Lemma v_concat_ok {Lx : lexis} en a b : okP (have en is_term) a -> okP (have en is_term) b -> okP (have en is_term) (v_concat a b).
Proof.
  intros A B. unfold v_concat. bnd. bnd. apply func_ok; [now left|left; fa|apply no_fopts_ok|discriminate].
Qed.
Lemma v_datetime_ok {Lx : lexis} en name p :
  match p with None => True | Some z => (0 <= z)%Z end -> okP (have en is_term) (v_datetime en name p).
Proof.
  intros P. unfold v_datetime. destruct (names_to_functions en (upper name)) as [f|] eqn:E; [|apply okP_err].
  assert (X : okP (have en is_term) (mk (NFunc f [] no_fopts))).
  { apply func_ok; [right; right; eauto|left; constructor|apply no_fopts_ok|discriminate]. }
  assert (Y : is_datetime f = true ->
              okP (have en is_term) (mk (NDateTime f (match p with None => 3%Z | Some p => p end)))).
  { intro D. apply have_mk; cbn [well_here kids scope]; [|constructor|reflexivity].
    split; [exact D|]. split; [eauto|]. destruct p; [exact P|lia]. }
  destruct f; first [exact X | exact (Y eq_refl)].
Qed.

(** ** Other expressions *)
Lemma v_type_ctor_ok {Lx : lexis} en i s : id_ok i -> okP quoted_text_in s -> okP (have en is_term) (v_type_ctor i s).
Proof.
  intros I S. unfold v_type_ctor. bnd. eapply okP_bind; [exact I|]. intros n N.
  apply have_mk; cbn [well_here kids scope]; [|constructor|reflexivity]. split; [assumption|]. eauto.
Qed.
Lemma v_cast_ok {Lx : lexis} en tr e t : okP (have en is_term) e -> ty_ok t -> okP (have en is_term) (v_cast tr e t).
Proof.
  intros E T. unfold v_cast. bnd. eapply okP_bind; [exact T|]. intros r R.
  destruct (canon r) as [d|] eqn:C; [|apply okP_err]. hv.
  apply have_mk; cbn [well_here kids scope]; [|fa|reflexivity]. split; [assumption|].
  eapply read_type_wf; eassumption.
Qed.
Definition br_ok {Lx : lexis} (en : env) (cv : node * node) : Prop := have en is_term (fst cv) /\ have en is_term (snd cv).
Lemma v_when_ok {Lx : lexis} en c x : okP (have en is_term) c -> okP (have en is_term) x ->
  okP (fun cv => br_ok en cv /\ is_none (fst cv) = false /\ is_none (snd cv) = false) (v_when c x).
Proof.
  intros C X. unfold v_when. bnd. bnd. destruct (wrapped a _) eqn:E1; [|apply okP_err]. cbn [bind].
  destruct (wrapped a0 _) eqn:E2; [|apply okP_err]. cbn [bind]. apply okP_ok. split; [now split|].
  cbn [fst snd]. split; [destruct a|destruct a0]; (reflexivity || discriminate).
Qed.
Lemma else_some e b el v : built (NCase b (Some el) v) -> e = el -> is_none e = false.
Proof.
  intros [t H] ->. cbn [check] in H. apply bind_inv in H as (ts & _ & H). apply bind_inv in H as (u & H & _).
  destruct el; try reflexivity. discriminate H.
Qed.
Lemma v_case_ok {Lx : lexis} en o ws el :
  opt_all' (okP (have en is_term)) o -> okP (Forall (br_ok en)) ws -> opt_all' (okP (have en is_term)) el ->
  okP (have en is_term) (v_case o ws el).
Proof.
  intros O W L. unfold v_case. bnd. eapply okP_bind; [apply seq_opt_ok; exact O|]. intros v V.
  eapply okP_bind; [apply seq_opt_ok; exact L|]. intros e E. intros x Hx. apply mk_ok in Hx as [-> B].
  set (v' := match v with None => None | Some x => opt_node x end) in *.
  assert (Hf : opt_is is_term v' /\ Forall (have en is_term) (opt_kids v')).
  { subst v'. destruct v as [x|]; [now apply opt_node_is|split; [exact Logic.I|constructor]]. }
  assert (Hb : Forall (have en is_term) (concat (map (fun cv => [fst cv; snd cv]) a))).
  { clear - H. induction H as [|[c y] l [H1 H2] F IH]; [constructor|]. cbn [map concat app fst snd] in *. fa. }
  split; [exact B|]. split; [|reflexivity]. constructor; cbn [well_here kids scope].
  - split; [|split; [|apply Hf]].
    + revert H. apply Forall_impl. intros [c y] [H1 H2]. cbn [fst snd] in *. split; [apply H1|apply H2].
    + destruct e as [e|]; [|exact Logic.I]. split; [apply E|]. eapply else_some; [exact B|reflexivity].
  - apply Forall_app. split; [fa|]. apply Forall_app. destruct Hf as [_ Hf]. split; [|fa].
    destruct e; cbn [opt_kids]; [constructor; [apply E|constructor]|constructor].
Qed.
Lemma v_listagg_ok {Lx : lexis} en sp ov ob e :
  opt_all' (okP quoted_text_in) sp -> opt_all' (okP (opt_all' (fun x => quoted_text_in (snd x)))) ov ->
  okP (Forall (ord_ok en)) ob -> okP (have en is_term) e -> okP (have en is_term) (v_listagg sp ov ob e).
Proof.
  intros S V O E. unfold v_listagg. eapply okP_bind; [apply seq_opt_ok; exact S|]. intros s Hs.
  eapply okP_bind; [apply seq_opt_ok; exact V|]. intros o Ho. bnd. bnd.
  match goal with H : Forall (ord_ok en) _ |- _ => apply ord_list in H end. hv.
  apply have_mk; cbn [well_here kids scope]; [|fa|reflexivity].
  split; [assumption|]. split; [|split; [|fa]].
  - destruct s; [exact Hs|]. split; [split; intros t; [|destruct t as [|? [|? ?]]]; discriminate|].
    apply paired_doubled. reflexivity.
  - destruct o as [[[b s']|]|]; [exact Ho|exact Logic.I..].
Qed.
Lemma v_select_all_ok {Lx : lexis} en b cols : okP (have en is_term) b -> opt_all' (fun l => l <> [] /\ Forall id_ok l) cols ->
  okP (have en is_selected) (v_select_all b cols).
Proof.
  intros B C. unfold v_select_all. bnd.
  eapply okP_bind with (Q := have en is_star).
  { hv. assert (X : is_field a = false -> is_none a = false -> okP (have en is_star) (mk (NStar (TRVal a) unknown))).
    { intros F Z. apply have_mk; cbn [well_here kids scope tref_read tref_kids]; fa; reflexivity. }
    destruct a; try (apply X; reflexivity).
    - apply have_mk; cbn [well_here kids scope tref_read tref_kids]; fa; reflexivity.
    - apply well_inv in W as [W _]. cbn [well_here] in W.
      apply have_mk; cbn [well_here kids scope tref_read tref_kids]; fa; try reflexivity. apply W. }
  intros s S. destruct cols as [l|].
  - destruct C as [N F]. eapply okP_bind with (Q := fun ns => ns <> [] /\ Forall name_text ns).
    { intros ns E. split; [eapply each_nonempty; eassumption|eapply each_idents; eassumption]. }
    intros ns [N1 N2]. hv. apply have_mk; cbn [well_here kids scope]; fa. reflexivity.
  - apply okP_ok. revert S. apply have_kind. destruct s; try discriminate. reflexivity.
Qed.
Lemma v_select_single_ok {Lx : lexis} en e a : okP (have en is_term) e -> opt_all' id_ok a ->
  okP (have en is_selected) (v_select_single e a).
Proof.
  intros E A. unfold v_select_single. bnd. destruct a as [i|].
  - eapply okP_bind; [exact A|]. intros n N. hv. apply have_mk; cbn [well_here kids scope]; fa. reflexivity.
  - apply okP_ok. revert H. apply have_kind, term_selected.
Qed.

(** ** Clauses *)
Lemma v_frame_ok {Lx : lexis} en f s e : okP (bnd_ok en) s -> opt_all' (okP (bnd_ok en)) e -> okP (win_ok en) (v_frame f s e).
Proof.
  intros S E. unfold v_frame. bnd. eapply okP_bind; [apply seq_opt_ok; exact E|]. intros b B. apply okP_ok.
  split; [exact Logic.I|]. cbn [window_kids map app]. apply Forall_app. split; [exact H|].
  destruct b; [exact B|constructor].
Qed.
Lemma default_window_ok {Lx : lexis} en : win_ok en default_window.
Proof. split; [exact Logic.I|constructor]. Qed.
Lemma win_bounds {Lx : lexis} en w : win_ok en w -> bnd_ok en (w_start w) /\ bnd_ok en (w_end w).
Proof.
  destruct w. intros [_ H]. cbn [window_kids] in H. apply Forall_app in H as [_ H]. apply Forall_app in H as [_ H].
  apply Forall_app in H as [H1 H2]. split; assumption.
Qed.
Lemma v_winspec_ok {Lx : lexis} en n ps ob fr :
  opt_all' id_ok n -> opt_all' (okP (Forall (have en is_term))) ps -> opt_all' (okP (Forall (ord_ok en))) ob ->
  opt_all' (okP (win_ok en)) fr -> okP (win_ok en) (v_winspec n ps ob fr).
Proof.
  intros N P O F. unfold v_winspec. eapply okP_bind with (Q := win_ok en).
  { destruct fr; [exact F|apply okP_ok, default_window_ok]. }
  intros w W. apply win_bounds in W as [W1 W2].
  eapply okP_bind; [apply seq_opt_ok; exact O|]. intros l L.
  eapply okP_bind; [apply seq_opt_ok; exact P|]. intros qs Q.
  eapply okP_bind with (Q := opt_name).
  { destruct n as [i|]; [|now apply okP_ok]. eapply okP_bind; [exact N|]. intros s S. now apply okP_ok. }
  intros p Pn. apply okP_ok. split; [exact Pn|]. cbn [window_kids].
  apply Forall_app. split; [destruct l; [now apply ord_list|constructor]|].
  apply Forall_app. split; [destruct qs; [exact Q|constructor]|].
  apply Forall_app. split; assumption.
Qed.
Lemma v_group_ok {Lx : lexis} {A} en (f : A -> group node) x (P : A -> Prop) :
  okP P x -> (forall a, P a -> grp_ok en (f a)) -> okP (grp_ok en) (v_group f x).
Proof.
  intros X H. unfold v_group. bnd. cbn zeta. destruct (group_ok valid _); [|apply okP_err]. cbn [bind].
  apply okP_ok. now apply H.
Qed.
Definition gb_ok {Lx : lexis} (en : env) (g : groupby node) : Prop := g_groups g <> [] /\ Forall (have en is_term) (groupby_kids g).
Lemma v_groupby_ok {Lx : lexis} en q l : okP (some_of (grp_ok en)) l -> okP (gb_ok en) (v_groupby q l).
Proof.
  intros L. unfold v_groupby. bnd. destruct H as [N F].
  match goal with |- okP _ (bind ?x _) => destruct x as [d|] end; [|apply okP_err]. cbn [bind].
  destruct (groupby_ok valid _); [|apply okP_err]. cbn [bind]. apply okP_ok. split; [exact N|].
  cbn [groupby_kids]. clear - F. induction F as [|g l G F IH]; [constructor|]. cbn [map concat].
  apply Forall_app. split; assumption.
Qed.
Lemma dict_set_ok {A} (P : string * A -> Prop) k v l : P (k, v) -> Forall P l -> Forall P (dict_set k v l).
Proof.
  intros H F. induction F as [|[k' v'] l Hk F IH]; cbn [dict_set]; [now constructor|].
  destruct (String.eqb_spec k' k) as [->|]; now constructor.
Qed.
Lemma dict_set_keys {A} k (v : A) l x : In x (map fst (dict_set k v l)) -> x = k \/ In x (map fst l).
Proof.
  induction l as [|[k' v'] l IH]; cbn [dict_set]; [intros [<-|[]]; now left|].
  destruct (String.eqb_spec k' k) as [->|]; cbn [map fst In]; [tauto|]. intros [<-|H]; [tauto|]. apply IH in H. tauto.
Qed.
Lemma dict_set_nodup {A} k (v : A) l : NoDup (map fst l) -> NoDup (map fst (dict_set k v l)).
Proof.
  induction l as [|[k' v'] l IH]; cbn [dict_set]; intro N; [constructor; [intros []|constructor]|].
  cbn [map fst] in N. inversion N; subst. destruct (String.eqb_spec k' k) as [->|D]; cbn [map fst].
  - now constructor.
  - constructor; [|now apply IH]. intros [E|E]%dict_set_keys; congruence.
Qed.
Lemma dict_of_ok {A} (P : string * A -> Prop) l : Forall P l -> Forall P (dict_of l) /\ NoDup (map fst (dict_of l)).
Proof.
  unfold dict_of. intro F.
  assert (G : forall m, Forall P m -> NoDup (map fst m) ->
     Forall P (fold_left (fun m kv => dict_set (fst kv) (snd kv) m) l m)
     /\ NoDup (map fst (fold_left (fun m kv => dict_set (fst kv) (snd kv) m) l m))).
  { induction F as [|[k v] l H F IH]; intros m M N; [auto|]. cbn [fold_left fst snd].
    apply IH; [now apply dict_set_ok|now apply dict_set_nodup]. }
  apply G; constructor.
Qed.
Lemma no_qattrs_read : qattrs_read no_qattrs.
Proof. split; [constructor|]. split; [constructor|]. split; exact Logic.I. Qed.
Lemma drop_ok {Lx : lexis} en k o : opt_all' (have en k) o ->
  opt_is k (drop_absent o) /\ Forall (have en k) (opt_kids (drop_absent o)).
Proof. destruct o; cbn [drop_absent opt_all']; [apply opt_node_is|intros _; split; [exact Logic.I|constructor]]. Qed.
Lemma v_select_ok {Lx : lexis} en q items from wh gb hv ws n :
  okP (Forall (have en is_selected)) items -> opt_all' (okP (Forall (have en is_source))) from ->
  opt_all' (okP (have en is_term)) wh -> opt_all' (okP (gb_ok en)) gb -> opt_all' (okP (have en is_term)) hv ->
  opt_all' (okP (Forall (named_ok en))) ws -> okP (have en is_select) (v_select q items from wh gb hv ws n).
Proof.
  intros I F W G H D. unfold v_select. bnd. destruct (mk _); [|apply okP_err]. cbn [bind].
  eapply okP_bind with (Q := opt_all' (have en is_source)).
  { destruct from as [l|]; [|now apply okP_ok]. destruct (Nat.ltb 1 n); [apply okP_err|]. cbn [opt_all'] in F. bnd.
    apply okP_ok. match goal with X : Forall _ ?l |- _ => destruct X; [exact Logic.I|assumption] end. }
  intros fr Fr. match goal with |- okP _ (bind ?x _) => destruct x as [d|] end; [|apply okP_err]. cbn [bind].
  eapply okP_bind; [apply seq_opt_ok; exact W|]. intros wh' Wh.
  eapply okP_bind; [apply seq_opt_ok; exact H|]. intros hv' Hv.
  eapply okP_bind; [apply seq_opt_ok; exact G|]. intros gb' Gb.
  eapply okP_bind; [apply seq_opt_ok; exact D|]. intros ws' Ws.
  apply drop_ok in Fr as [Fr1 Fr2]. apply drop_ok in Wh as [Wh1 Wh2]. apply drop_ok in Hv as [Hv1 Hv2].
  set (dw := match ws' with None => [] | Some l => dict_of l end).
  assert (Dw : Forall (named_ok en) dw /\ NoDup (map fst dw)).
  { subst dw. destruct ws'; [now apply dict_of_ok|split; constructor]. }
  destruct Dw as [Dw Nd].
  apply have_mk; cbn [well_here kids scope]; [| |reflexivity].
  - split; [fa|]. split; [exact Fr1|]. split; [exact Wh1|].
    split; [destruct gb' as [g|]; [destruct Gb as [N K]; split; [exact N|fa]|exact Logic.I]|].
    split; [exact Hv1|]. split; [|split; [exact Nd|apply no_qattrs_read]].
    revert Dw. apply Forall_impl. intros [k w] [N [P K]]. split; [exact N|]. split; [exact P|fa].
  - assert (Hw : Forall (well en []) (concat (map (fun nw => window_kids (snd nw)) dw))).
    { clear - Dw. induction Dw as [|[k w] l [_ [_ K]] F IH]; [constructor|]. cbn [map concat snd] in *. fa. }
    assert (Hg : Forall (well en []) (match gb' with None => [] | Some g => groupby_kids g end)).
    { destruct gb' as [g|]; [destruct Gb; fa|constructor]. }
    cbn [qattrs_kids no_qattrs]. fa. constructor.
Qed.

(** ** Queries *)
Definition qa_ok {Lx : lexis} (en : env) (q : qattrs node) : Prop :=
  Forall (have en is_named) (q_with q) /\ Forall (ord_ok en) (q_orderby q)
  /\ opt_nonneg (q_offset q) /\ opt_nonneg (q_limit q).
Lemma have_split {Lx : lexis} en k l : Forall built l -> Forall (well en []) l -> all k l -> Forall (have en k) l.
Proof.
  intros B W A. rewrite Forall_forall in *. unfold all in A. rewrite Forall_forall in A.
  intros e H. split; [now apply B|]. split; [now apply W|now apply A].
Qed.
Lemma qa_of {Lx : lexis} en qa : Forall built (qattrs_kids qa) -> Forall (well en []) (qattrs_kids qa) -> qattrs_read qa -> qa_ok en qa.
Proof.
  destruct qa as [wi ob off lim]. cbn [qattrs_kids]. intros B W (R1 & R2 & R3 & R4).
  apply Forall_app in B as [B1 B2]. apply Forall_app in W as [W1 W2]. cbn [Ast.q_with Ast.q_orderby] in *.
  split; [now apply have_split|]. split; [|split; assumption].
  unfold ord_ok. apply Forall_map. now apply have_split.
Qed.
Lemma qa_parts {Lx : lexis} en qa : qa_ok en qa -> Forall built (qattrs_kids qa) /\ Forall (well en []) (qattrs_kids qa) /\ qattrs_read qa.
Proof.
  destruct qa as [wi ob off lim]. intros (R1 & R2 & R3 & R4). cbn [Ast.q_with Ast.q_orderby qattrs_kids] in *.
  apply ord_list in R2. split; [|split].
  - apply Forall_app. split; eapply have_built; eassumption.
  - fa.
  - split; [fa|]. split; [fa|]. split; assumption.
Qed.
Lemma each_done {A} (f : A -> result unit) l : Forall (fun a => f a = Ok tt) l -> all_ok f l = Ok tt.
Proof.
  unfold all_ok. intro F. assert (E : exists us, each f l = Ok us).
  { induction F as [|a l H F [us IH]]; [now exists []|]. exists (tt :: us). cbn [each]. now rewrite H; cbn [bind]; rewrite IH. }
  destruct E as [us ->]. reflexivity.
Qed.
Lemma qattrs_done qa : Forall built (qattrs_kids qa) -> qattrs_ok (fun x => let* _ := check x in Ok tt) qa = Ok tt.
Proof.
  destruct qa as [wi ob off lim]. cbn [qattrs_kids qattrs_ok]. intros [B1 B2]%Forall_app.
  rewrite each_done. 2:{ revert B1. apply Forall_impl. intros e [t ->]. reflexivity. }
  cbn [bind]. apply each_done. rewrite Forall_forall in B2 |- *. intros [v d nf] I.
  destruct (B2 v (in_map o_value _ _ I)) as [t E]. unfold order_ok. cbn [o_value]. now rewrite E.
Qed.
Lemma set_q_ok {Lx : lexis} en f q : have en is_select q -> (forall qa, qa_ok en qa -> qa_ok en (f qa)) ->
  okP (have en is_select) (set_q f q).
Proof.
  intros (B & W & K) F. pose proof (parts_built _ B) as Bk. apply well_inv in W as [Wh Wk].
  destruct q; try apply okP_err; cbn [set_q kids well_here scope] in *; apply okP_ok.
  - (* SELECT *)
    destruct Wh as (W1 & W2 & W3 & W4 & W5 & W6 & W7 & W8).
    repeat match goal with H : Forall _ (_ ++ _) |- _ => apply Forall_app in H as [? ?] end.
    match goal with B : Forall built (qattrs_kids qa), W : Forall (well _ _) (qattrs_kids qa) |- _ =>
      pose proof (qattrs_done _ B) as D; pose proof (F _ (qa_of _ _ B W W8)) as Q end.
    apply qa_parts in Q as (Q1 & Q2 & Q3). pose proof (qattrs_done _ Q1) as D'.
    split; [|split; [|reflexivity]].
    + destruct B as [t B]. exists t. cbn [check] in *. rewrite D in B. rewrite D'. exact B.
    + constructor; cbn [well_here kids scope]; [auto 10|]. fa.
  - (* set operations *)
    destruct Wh as (W1 & W2 & W8).
    repeat match goal with H : Forall _ (_ :: _) |- _ => inversion H; clear H; subst end.
    match goal with B : Forall built (qattrs_kids qa), W : Forall (well _ _) (qattrs_kids qa) |- _ =>
      pose proof (qattrs_done _ B) as D; pose proof (F _ (qa_of _ _ B W W8)) as Q end.
    apply qa_parts in Q as (Q1 & Q2 & Q3). pose proof (qattrs_done _ Q1) as D'.
    split; [|split; [|reflexivity]].
    + destruct B as [t B]. exists t. cbn [check] in *. rewrite D in B. rewrite D'. exact B.
    + constructor; cbn [well_here kids scope]; [auto 10|]. fa.
  - (* TABLE *)
    destruct Wh as (W1 & W8).
    repeat match goal with H : Forall _ (_ :: _) |- _ => inversion H; clear H; subst end.
    match goal with B : Forall built (qattrs_kids qa), W : Forall (well _ _) (qattrs_kids qa) |- _ =>
      pose proof (qattrs_done _ B) as D; pose proof (F _ (qa_of _ _ B W W8)) as Q end.
    apply qa_parts in Q as (Q1 & Q2 & Q3). pose proof (qattrs_done _ Q1) as D'.
    split; [|split; [|reflexivity]].
    + destruct B as [t B]. exists t. cbn [check] in *. rewrite D in B. rewrite D'. exact B.
    + constructor; cbn [well_here kids scope]; [auto 10|]. fa.
  - (* VALUES *)
    destruct Wh as (W1 & W2 & W8).
    repeat match goal with H : Forall _ (_ ++ _) |- _ => apply Forall_app in H as [? ?] end.
    match goal with B : Forall built (qattrs_kids qa), W : Forall (well _ _) (qattrs_kids qa) |- _ =>
      pose proof (qattrs_done _ B) as D; pose proof (F _ (qa_of _ _ B W W8)) as Q end.
    apply qa_parts in Q as (Q1 & Q2 & Q3). pose proof (qattrs_done _ Q1) as D'.
    split; [|split; [|reflexivity]].
    + destruct B as [t B]. exists t. cbn [check] in *. rewrite D in B. rewrite D'. exact B.
    + constructor; cbn [well_here kids scope]; [auto 10|]. fa.
Qed.
Lemma v_query_no_with_ok {Lx : lexis} en q ob off lim :
  okP (have en is_select) q -> opt_all' (okP (Forall (ord_ok en))) ob ->
  opt_all' (okP (fun z => (0 <= z)%Z)) off -> opt_all' (okP opt_nonneg) lim ->
  okP (have en is_select) (v_query_no_with q ob off lim).
Proof.
  intros Q O F L. unfold v_query_no_with. bnd.
  eapply okP_bind with (Q := have en is_select).
  { destruct ob as [l|]; [|now apply okP_ok]. cbn [opt_all'] in O. bnd. apply set_q_ok; [assumption|].
    intros qa (A & B & C & D). split; [exact A|]. split; [assumption|]. split; assumption. }
  intros q1 Q1. eapply okP_bind with (Q := have en is_select).
  { destruct off as [l|]; [|now apply okP_ok]. cbn [opt_all'] in F. bnd. apply set_q_ok; [assumption|].
    intros qa (A & B & C & D). split; [exact A|]. split; [exact B|]. split; assumption. }
  intros q2 Q2. destruct lim as [l|]; [|now apply okP_ok]. cbn [opt_all'] in L. bnd. apply set_q_ok; [assumption|].
  intros qa (A & B & C & D). split; [exact A|]. split; [exact B|]. split; assumption.
Qed.
Lemma v_query_ok {Lx : lexis} en r w q : okP (have en is_select) q -> opt_all' (okP (Forall (have en is_named))) w ->
  okP (have en is_select) (v_query r w q).
Proof.
  intros Q W. unfold v_query. bnd. destruct w as [l|]; [|now apply okP_ok].
  destruct (py_assert _); [|apply okP_err]. cbn [bind opt_all'] in *. bnd. apply set_q_ok; [assumption|].
  intros qa (A & B & C & D). split; [assumption|]. split; [exact B|]. split; assumption.
Qed.
Lemma v_set_ok {Lx : lexis} en op q a b : okP (have en is_select) a -> okP (have en is_select) b ->
  okP (have en is_select) (v_set op q a b).
Proof.
  intros A B. unfold v_set. bnd. bnd. match goal with |- okP _ (bind ?x _) => destruct x as [d|] end; [|apply okP_err].
  cbn [bind]. hv. apply have_mk; cbn [well_here kids scope qattrs_kids no_qattrs map app]; fa; try reflexivity.
  apply no_qattrs_read.
Qed.

(** ** Relations *)
Lemma table_ok {Lx : lexis} en l : Forall name_text l -> okP (have en is_source) (table_from_qualifiers l).
Proof.
  intros F. unfold table_from_qualifiers. apply Forall_rev in F. destruct F as [|n r N F]; [apply okP_err|].
  apply have_mk; cbn [well_here kids scope]; [|constructor|reflexivity].
  split; [exact N|]. destruct F as [|s r S F]; [cbn; auto|]. destruct F as [|c r C F]; cbn; fa; auto; discriminate.
Qed.
Lemma v_table_ok {Lx : lexis} en l : Forall id_ok l -> okP (have en is_source) (v_table l).
Proof.
  intros F. unfold v_table. eapply okP_bind; [intros ns E; exact (each_idents _ _ F E)|]. apply table_ok.
Qed.
Lemma v_aliased_rel_ok {Lx : lexis} en x a cols : okP (have en is_source) x -> opt_all' id_ok a -> Forall id_ok cols ->
  okP (have en is_source) (v_aliased_rel x a cols).
Proof.
  intros X A C. unfold v_aliased_rel. bnd. destruct a as [i|]; [|now apply okP_ok].
  eapply okP_bind; [exact A|]. intros n N. eapply okP_bind; [intros ns E; exact (each_idents _ _ C E)|].
  intros ns Ns. hv. apply have_mk; cbn [well_here kids scope]; fa. reflexivity.
Qed.
Lemma v_named_ok {Lx : lexis} en i cols q : id_ok i -> Forall id_ok cols -> okP (have en is_select) q ->
  okP (have en is_named) (v_named i cols q).
Proof.
  intros I C Q. unfold v_named. eapply okP_bind; [exact I|]. intros n N. bnd.
  eapply okP_bind; [intros ns E; exact (each_idents _ _ C E)|].
  intros ns Ns. hv. apply have_mk; cbn [well_here kids scope is_named]; fa. now apply select_source.
Qed.
Definition jc_ok {Lx : lexis} (en : env) (c : jcrit node) : Prop :=
  match c with JOn x => have en is_term x | JUsing l => l <> [] /\ Forall name_text l end.
Lemma v_join_ok {Lx : lexis} en a b jt n c : okP (have en is_source) a -> okP (have en is_source) b ->
  opt_all' (okP (jc_ok en)) c -> (c = None -> is_cross jt = negb n) -> okP (have en is_source) (v_join a b jt n c).
Proof.
  intros A B C N. unfold v_join. bnd. bnd.
  eapply okP_bind with (Q := fun x => opt_all' (jc_ok en) x /\ (x = None -> c = None)).
  { destruct c as [r|]; cbn [seq_opt opt_all'] in *; [|now apply okP_ok]. bnd. apply okP_ok. split; [assumption|discriminate]. }
  intros x [X Z]. hv. apply have_mk; cbn [well_here kids scope]; [| |reflexivity].
  - split; [assumption|]. split; [assumption|]. destruct x as [[l|y]|]; cbn [join_read opt_all' jc_ok] in *;
      [exact X|apply X|]. now apply N, Z.
  - constructor; [assumption|]. constructor; [assumption|]. destruct x as [[l|y]|]; cbn [jcrit_kids opt_all' jc_ok] in *;
      [constructor| |constructor]. constructor; [apply X|constructor].
Qed.
