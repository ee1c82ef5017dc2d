(** What [treeify] (treeno/cli.py 65-95) shows of the attributes of an object: the rules of
    [_should_skip] and [treeify] themselves, over the attributes as [attr.asdict] gives them
    (Equals.v), without their classes; and that the trees of Tree.v follow them. *)
From Coq Require Import String Ascii List ZArith QArith Bool Permutation Lia.
From Verif Require Import PyStr StrFacts Types TypeParser Inference Functions Ast Walk NodeFacts Tokens Equals Cli Tree TreeFacts PropertiesTree.
Import ListNotations.
Open Scope nat_scope.
Open Scope string_scope.
Open Scope list_scope.
Local Notation "x ++ y" := (String.append x y) : string_scope.

(** The defaults of the enumerations that have one: base.py 156-164, orderby.py 15-31,
    window.py 19-38. *)
Definition default_members : list string :=
  ["SetQuantifier.ALL"; "OrderType.ASC"; "NullOrder.LAST"; "NullTreatment.RESPECT"; "FrameType.RANGE"].
(** cli.py 65-75 (an object without attributes is no dict and is not skipped). *)
Inductive skipped : string -> dval -> Prop :=
| skip_hidden k v : skipped ("_" ++ k) v
| skip_none k : skipped k DNone
| skip_default k n : In n default_members -> skipped k (DEnum n)
| skip_empty k : skipped k (DList []).

(** cli.py 78-95.  The class of an object is not among its attributes: the label of its tree is
    left open here.  A dict of windows is shown in the order in which they were given. *)
Inductive shows : dval -> tree -> Prop :=
| shows_none : shows DNone (Leaf "None")
| shows_text s : shows (DStr s) (Leaf s)
| shows_int z : shows (DNum (Qmake z 1)) (Leaf (str_of_Z z))
| shows_true : shows (DNum 1) (Leaf "True")
| shows_false : shows (DNum 0) (Leaf "False")
| shows_decimal d : shows (DNum (dec_value d)) (Leaf (dec_str d))
| shows_float r : shows (DFloat r) (Leaf r)
| shows_member n : shows (DEnum n) (Leaf n)
| shows_type t : shows (d_type t) (Leaf (type_sql t))
| shows_list l ts : Forall2 shows l ts -> shows (DList l) (Tree "<list>" ts)
| shows_object c l ts : shows_attributes l ts -> shows (DDict l) (Tree c ts)
| shows_dict l l' ts : Permutation l l' -> shows_items l' ts -> shows (DDict l) (Tree "<dict>" ts)
with shows_attributes : list (string * dval) -> list tree -> Prop :=
| shows_end : shows_attributes [] []
| shows_skip k v l ts : skipped k v -> shows_attributes l ts -> shows_attributes ((k, v) :: l) ts
| shows_attribute k v t l ts : ~ skipped k v -> shows v t -> shows_attributes l ts ->
    shows_attributes ((k, v) :: l) (Tree k [t] :: ts)
with shows_items : list (string * dval) -> list tree -> Prop :=
| shows_no_item : shows_items [] []
| shows_item k v c l ts us : shows v (Tree c ts) -> shows_items l us ->
    shows_items ((k, v) :: l) (Tree k ts :: us).

(** * One attribute *)
Definition agrees (k : string) (v : dval) (t : option tree) : Prop :=
  match t with None => skipped k v | Some t => ~ skipped k v /\ shows v t end.
Lemma agree_cons k v t l r : agrees k v t -> shows_attributes l (entries r) ->
  shows_attributes ((k, v) :: l) (entries ((k, t) :: r)).
Proof. intros H HL. destruct t as [t|]; cbn [agrees entries] in *; [destruct H|]; now constructor. Qed.

Definition plain (k : string) : Prop := match k with String "_"%char _ => False | _ => True end.
Definition visible (v : dval) : bool :=
  match v with
  | DNone => false | DEnum n => negb (mem n default_members) | DList [] => false | _ => true
  end.
Lemma not_skipped k v : plain k -> visible v = true -> ~ skipped k v.
Proof.
  intros P V H. destruct H as [k v|k|k n H|k]; cbn [plain visible] in *; try discriminate; [exact P|].
  apply negb_true_iff in V. assert (mem n default_members = true); [|congruence].
  unfold mem. apply existsb_exists. exists n. split; [exact H|apply String.eqb_refl].
Qed.
Lemma agree_text k s : plain k -> agrees k (DStr s) (t_text s).
Proof. intro P. split; [now apply not_skipped|constructor]. Qed.
Lemma agree_int k z : plain k -> agrees k (d_int z) (t_int z).
Proof. intro P. split; [now apply not_skipped|apply shows_int]. Qed.
Lemma agree_bool k b : plain k -> agrees k (d_bool b) (t_bool b).
Proof. intro P. split; [now apply not_skipped|destruct b; [apply shows_true|apply shows_false]]. Qed.
Lemma agree_member k n : plain k -> mem n default_members = false -> agrees k (DEnum n) (t_text n).
Proof. intros P M. split; [apply not_skipped; [exact P|cbn [visible]; now rewrite M]|constructor]. Qed.
Lemma agree_flag k (b : bool) n d : plain k -> mem n default_members = false -> In d default_members ->
  agrees k (DEnum (if b then n else d)) (t_flag b n).
Proof. intros P M D. destruct b; [now apply agree_member|now constructor]. Qed.
Lemma agree_opt {A} k (f : A -> dval) g (x : option A) : (forall a, x = Some a -> agrees k (f a) (g a)) ->
  agrees k (d_opt f x) (t_opt g x).
Proof. intros H. destruct x as [a|]; [now apply H|constructor]. Qed.
Lemma shows_map {A} (f : A -> dval) (g : A -> tree) l : (forall x, In x l -> shows (f x) (g x)) ->
  Forall2 shows (map f l) (map g l).
Proof.
  induction l as [|x l IH]; intros H; [constructor|].
  constructor; [apply H; now left|apply IH; intros y Hy; apply H; now right].
Qed.
Lemma agree_list {A} k (f : A -> dval) g (l : list A) : plain k -> (forall x, In x l -> shows (f x) (g x)) ->
  agrees k (DList (map f l)) (t_list g l).
Proof.
  intros P H. destruct l as [|x l]; [constructor|].
  split; [now apply not_skipped|]. apply shows_list. now apply (shows_map f g).
Qed.
Lemma agree_list_opt {A} k (f : A -> dval) g (l : list A) : plain k -> (forall x, In x l -> shows (f x) (g x)) ->
  agrees k (d_list f l) (t_list g l).
Proof. intros P H. destruct l as [|x l]; [constructor|]. exact (agree_list k f g (x :: l) P H). Qed.
Lemma agree_object k c l r : plain k -> shows_attributes l (entries r) -> agrees k (DDict l) (Some (object c r)).
Proof. intros P H. split; [now apply not_skipped|now constructor]. Qed.
Lemma agree_type k e : plain k ->
  agrees k (snd (d_data_type e)) (match data_type e with Ok t => t_type t | Err _ => None end).
Proof.
  intros P. cbn [snd d_data_type]. destruct (data_type e) as [t|]; [|constructor].
  split; [apply not_skipped; [exact P|destruct t; reflexivity]|constructor].
Qed.
Lemma agree_lit k l : plain k -> agrees k (d_lit l) (t_lit l).
Proof.
  intro P. destruct l; cbn [d_lit t_lit]; [constructor| | | | |];
    [now apply agree_bool|now apply agree_int|split; [now apply not_skipped|constructor]
    |now apply agree_text|split; [now apply not_skipped|constructor]].
Qed.

(** * Parts *)
Definition fine (x : node) : Prop := shows (asdict x) (treeify x).
Definition allfine (l : list node) : Prop := forall x, In x l -> fine x.
Lemma asdict_visible x : x <> NNone -> visible (asdict x) = true.
Proof.
  intros N. destruct x; try reflexivity; [now elim N|].
  cbn [asdict]. destruct (is_aggregate f); reflexivity.
Qed.
Lemma agree_part k x : plain k -> fine x -> agrees k (asdict x) (attr x).
Proof.
  intros P F. assert (D : {x = NNone} + {x <> NNone}) by (destruct x; (now left) || (right; discriminate)).
  destruct D as [->|N]; [constructor|].
  assert (E : attr x = Some (treeify x)) by (destruct x; reflexivity || now elim N).
  rewrite E. split; [apply not_skipped; [exact P|now apply asdict_visible]|exact F].
Qed.

Ltac each_in := intros ? ?; repeat match goal with H : allfine _ |- _ => apply H end;
  repeat (rewrite ?in_app_iff; cbn [In]); auto 20.
Ltac done_plain := exact Logic.I.
Ltac done_mem := first [reflexivity | (cbn [In default_members]; tauto)].

Lemma fine_order o : fine (o_value o) -> shows (d_order asdict o) (t_order attr o).
Proof.
  destruct o as [v d n]; cbn [o_value d_order t_order]; intro F. apply shows_object.
  apply agree_cons; [now apply agree_part|].
  apply agree_cons; [apply agree_flag; done_plain || done_mem|].
  apply agree_cons; [apply agree_flag; done_plain || done_mem|constructor].
Qed.
Lemma agree_orders k l : plain k -> allfine (map o_value l) ->
  agrees k (d_list (d_order asdict) l) (t_list (t_order attr) l).
Proof. intros P F. apply agree_list_opt; [exact P|]. intros o Ho. apply fine_order, F. now apply in_map. Qed.
Lemma agree_dir k b : plain k -> agrees k (d_dir b) (t_dir b).
Proof. intro P. destruct b; now apply agree_member. Qed.
Lemma fine_bound b : allfine (bound_kids b) -> shows (d_bound asdict b) (t_bound attr b).
Proof.
  destruct b as [d v|d|]; cbn [bound_kids d_bound t_bound]; intro F; apply shows_object.
  - apply agree_cons; [now apply agree_dir|]. apply agree_cons; [|constructor].
    apply agree_part; [done_plain|apply F; now left].
  - apply agree_cons; [now apply agree_dir|constructor].
  - constructor.
Qed.
Lemma bound_visible b : visible (d_bound asdict b) = true.
Proof. destruct b; reflexivity. Qed.
Lemma fine_window_entries w : allfine (window_kids w) -> exists l ts,
  d_window asdict w = DDict l /\ t_window treeify attr w = Tree "Window" ts /\ shows_attributes l ts.
Proof.
  destruct w as [p ob ps fr s e]; cbn [window_kids d_window t_window]. intro F.
  eexists _, _; split; [reflexivity|split; [reflexivity|]].
  apply agree_cons; [apply agree_opt; intros; now apply agree_text|].
  apply agree_cons; [apply agree_orders; [done_plain|each_in]|].
  apply agree_cons; [apply agree_list_opt; [done_plain|each_in]|].
  apply agree_cons; [destruct fr; [constructor; done_mem|now apply agree_member..]|].
  apply agree_cons; [split; [apply not_skipped; [done_plain|apply bound_visible]|apply fine_bound; each_in]|].
  apply agree_cons; [split; [apply not_skipped; [done_plain|apply bound_visible]|apply fine_bound; each_in]|].
  constructor.
Qed.
Lemma agree_window k w : plain k -> allfine (window_kids w) -> agrees k (d_window asdict w) (Some (t_window treeify attr w)).
Proof.
  intros P F. destruct (fine_window_entries w F) as (l & ts & -> & -> & H).
  split; [now apply not_skipped|now constructor].
Qed.
Lemma shows_app l r : forall ts us, shows_attributes l ts -> shows_attributes r us -> shows_attributes (l ++ r) (ts ++ us).
Proof.
  induction l as [|[k v] l IH]; intros ts us H K; inversion H; subst; cbn [app]; [exact K| |].
  - apply shows_skip; auto.
  - apply shows_attribute; auto.
Qed.
Lemma entries_app l r : entries (l ++ r) = entries l ++ entries r.
Proof. induction l as [|[k [t|]] l IH]; cbn [entries app]; [reflexivity|now rewrite IH|exact IH]. Qed.
Lemma fine_fopts fo : allfine (fopts_kids fo) -> shows_attributes (d_fopts asdict fo) (entries (t_fopts treeify attr fo)).
Proof.
  destruct fo as [ob fi wi ig]; cbn [fopts_kids d_fopts t_fopts]; intro F.
  apply agree_cons; [apply agree_orders; [done_plain|each_in]|].
  apply agree_cons; [apply agree_opt; intros a ->; apply agree_part; [done_plain|]; apply F; cbn [opt_kids];
                     rewrite ?in_app_iff; cbn [In]; auto|].
  apply agree_cons; [apply agree_opt; intros a ->; apply agree_window; [done_plain|each_in]|].
  apply agree_cons; [apply agree_flag; done_plain || done_mem|constructor].
Qed.
Lemma fine_qattrs q : allfine (qattrs_kids q) -> shows_attributes (d_qattrs asdict q) (entries (t_qattrs treeify attr q)).
Proof.
  destruct q as [wi ob off lim]; cbn [qattrs_kids d_qattrs t_qattrs]; intro F.
  apply agree_cons; [apply agree_opt; intros; now apply agree_int|].
  apply agree_cons; [apply agree_opt; intros; now apply agree_int|].
  apply agree_cons; [apply agree_orders; [done_plain|each_in]|].
  apply agree_cons; [apply agree_list_opt; [done_plain|each_in]|constructor].
Qed.
Lemma fine_group g : allfine (group_kids g) -> shows (d_group asdict g) (t_group treeify g).
Proof.
  destruct g as [l|l|l|ll]; cbn [group_kids d_group t_group]; intro F; apply shows_object;
    (apply agree_cons; [|exact shows_end]); (apply agree_list; [done_plain|]); try exact F.
  intros gs Hl. apply shows_object. apply agree_cons; [|exact shows_end]. apply agree_list; [done_plain|].
  intros x Hx. apply F. apply in_concat. eauto.
Qed.
Lemma agree_quantifier k b : plain k -> agrees k (d_quantifier b) (t_quantifier b).
Proof. intro P. apply agree_flag; [exact P|done_mem|done_mem]. Qed.
Lemma agree_groupby k g : plain k -> allfine (groupby_kids g) -> agrees k (d_groupby asdict g) (Some (t_groupby treeify g)).
Proof.
  intros P F. destruct g as [gs d]; cbn [groupby_kids d_groupby t_groupby] in *.
  apply agree_object; [exact P|].
  apply agree_cons; [apply agree_list; [done_plain|]|apply agree_cons; [now apply agree_quantifier|exact shows_end]].
  intros g Hg. apply fine_group. intros x Hx. apply F. apply in_concat. exists (group_kids g). split; [now apply in_map|exact Hx].
Qed.
Lemma agree_crit k c : plain k -> allfine (jcrit_kids c) -> agrees k (d_crit asdict c) (Some (t_crit attr c)).
Proof.
  intros P F. destruct c as [cols|x]; cbn [jcrit_kids d_crit t_crit] in *; (apply agree_object; [exact P|]);
    (apply agree_cons; [|exact shows_end]).
  - apply agree_list; [done_plain|]. intros; constructor.
  - apply agree_part; [done_plain|apply F; now left].
Qed.
Lemma agree_tref k t : plain k -> allfine (tref_kids t) -> agrees k (d_tref asdict t) (t_tref attr t).
Proof.
  intros P F. destruct t as [|s|v]; cbn [tref_kids d_tref t_tref] in *; [constructor|now apply agree_text|].
  apply agree_part; [exact P|apply F; now left].
Qed.
Lemma fine_branch c x : fine c -> fine x -> shows (d_branch asdict (c, x)) (t_branch attr (c, x)).
Proof.
  intros C X. apply shows_object. apply agree_cons; [now apply agree_part|]. apply agree_cons; [now apply agree_part|exact shows_end].
Qed.
Lemma agree_args f args : allfine args -> shows_attributes (fn_args f (map asdict args)) (entries (t_args treeify attr f args)).
Proof.
  intro F. unfold fn_args, t_args. destruct (fn_variadic f).
  - apply agree_cons; [|exact shows_end]. apply agree_list; [done_plain|exact F].
  - assert (P : Forall plain (fn_attrs f)) by (destruct f; repeat constructor).
    revert args F. induction P as [|k ks Pk P IH]; intros args F; [destruct args; constructor|].
    destruct args as [|a args]; cbn [map named_args t_named_args].
    + apply agree_cons; [constructor|]. apply (IH []). intros x [].
    + apply agree_cons; [apply agree_part; [exact Pk|apply F; now left]|].
      apply IH. intros x Hx. apply F. now right.
Qed.
Lemma insert_permutes kv l : Permutation (kv :: l) (insert_key kv l).
Proof.
  induction l as [|kv' l IH]; cbn [insert_key]; [reflexivity|].
  destruct (String.leb (fst kv) (fst kv')); [reflexivity|].
  etransitivity; [apply perm_swap|]. now constructor.
Qed.
Lemma sort_permutes l : Permutation (sort_keys l) l.
Proof.
  induction l as [|kv l IH]; [constructor|]. unfold sort_keys in *. cbn [fold_right].
  symmetry. etransitivity; [|apply insert_permutes]. now constructor.
Qed.
Lemma fine_named ws : allfine (concat (map (fun nw : string * window node => window_kids (snd nw)) ws)) ->
  shows_items (map (d_named asdict) ws) (map (t_named treeify attr) ws).
Proof.
  induction ws as [|[n w] ws IH]; intro F; cbn [map concat snd] in *; [constructor|].
  destruct (fine_window_entries w) as (l & ts & E1 & E2 & H); [each_in|].
  unfold d_named at 1, t_named at 1. rewrite E1, E2. cbn [children_of].
  apply shows_item with "Window"; [now constructor|]. apply IH. each_in.
Qed.
Lemma agree_named k ws : plain k -> allfine (concat (map (fun nw : string * window node => window_kids (snd nw)) ws)) ->
  agrees k (match ws with [] => DNone | _ => DDict (sort_keys (map (d_named asdict) ws)) end)
           (match ws with [] => None | _ => Some (Tree "<dict>" (map (t_named treeify attr) ws)) end).
Proof.
  intros P F. destruct ws as [|nw ws]; [constructor|]. split; [now apply not_skipped|].
  eapply shows_dict; [apply sort_permutes|now apply fine_named].
Qed.

(** * Objects *)
Ltac part_of IH := apply IH; cbn [kids opt_kids]; repeat (rewrite ?in_app_iff; cbn [In]); auto 20.
Ltac sub IH := intros ? ?; part_of IH.
Ltac ty_first := cbn [asdict attributes]; apply agree_cons; [now apply agree_type|].
Ltac nil_rest := exact shows_end.
Ltac kid IH := apply agree_cons; [apply agree_part; [done_plain|part_of IH]|].
Ltac opt_kid IH := apply agree_cons; [apply agree_opt; intros ? ->; apply agree_part; [done_plain|part_of IH]|].
Ltac text := apply agree_cons; [now apply agree_text|].
Ltac opt_text := apply agree_cons; [apply agree_opt; intros; now apply agree_text|].
Ltac kid_list IH := apply agree_cons; [apply agree_list; [done_plain|sub IH]|].
Ltac names := apply agree_cons; [first [apply agree_list|apply agree_list_opt]; [done_plain|intros; constructor]|].

Theorem attributes_shown e : shows (asdict e) (treeify e).
Proof.
  induction e as [e IH] using kids_ind. change (allfine (kids e)) in IH.
  assert (D : {e = NNone} + {e <> NNone}) by (destruct e; (now left) || (right; discriminate)).
  destruct D as [->|N]; [constructor|].
  rewrite (treeify_attributes e N).
  assert (G : forall l, asdict e = DDict l -> shows_attributes l (entries (attributes e)) ->
              shows (asdict e) (object (class_name (class_of e)) (attributes e)))
    by (intros l -> H; now apply shows_object).
  destruct e; try (eapply G; [reflexivity|]); clear G; try now elim N.
  - ty_first. apply agree_cons; [now apply agree_lit|]. nil_rest.
  - ty_first. text. apply agree_cons; [apply agree_tref; [done_plain|sub IH]|]. nil_rest.
  - ty_first. kid IH. text. nil_rest.
  - ty_first. apply agree_cons; [apply agree_tref; [done_plain|sub IH]|]. nil_rest.
  - ty_first. kid IH. names. nil_rest.
  - ty_first. text. nil_rest.
  - ty_first. apply agree_cons; [apply agree_list; [done_plain|]|].
    { intros n _. apply shows_object. apply agree_cons; [|text; nil_rest].
      split; [now apply not_skipped|apply shows_type]. }
    kid IH. nil_rest.
  - ty_first. kid IH. nil_rest.
  - ty_first. kid IH. kid IH. nil_rest.
  - ty_first. kid IH. kid IH. kid IH. nil_rest.
  - ty_first. kid_list IH. nil_rest.
  - ty_first. kid IH. kid IH. nil_rest.
  - ty_first. kid IH. kid_list IH. nil_rest.
  - ty_first. kid IH. kid IH. opt_kid IH. nil_rest.
  - ty_first. text. text. nil_rest.
  - ty_first. kid_list IH. nil_rest.
  - ty_first. text. text. opt_text. nil_rest.
  - ty_first. kid IH. nil_rest.
  - ty_first. kid IH. kid IH. nil_rest.
  - ty_first. apply agree_cons; [apply agree_list; [done_plain|]|].
    { intros [c x] Hb. match type of IH with allfine ?k => assert (In c k /\ In x k) as [Hc Hx] end.
      { cbn [kids]. rewrite !in_app_iff. split; left; apply in_concat; exists [c; x];
          (split; [apply (in_map (fun cv => [fst cv; snd cv]) branches (c, x)); exact Hb|cbn [In]; auto]). }
      apply fine_branch; now apply IH. }
    apply agree_cons; [apply agree_opt; intros x ->; unfold t_else; apply agree_object; [done_plain|kid IH; nil_rest]|].
    opt_kid IH. nil_rest.
  - (* NFunc *) cbn [asdict attributes class_of].
    assert (HA : allfine args) by sub IH. assert (HF : allfine (fopts_kids fo)) by sub IH.
    destruct (is_aggregate f); apply shows_object.
    + apply agree_cons; [now apply agree_type|]. rewrite entries_app. apply shows_app; [now apply fine_fopts|now apply agree_args].
    + apply agree_cons; [now apply agree_type|]. now apply agree_args.
  - ty_first. apply agree_cons; [now apply agree_int|]. nil_rest.
  - ty_first. rewrite entries_app. apply shows_app; [apply fine_fopts; cbn [fopts_kids opt_kids]; rewrite !app_nil_r; sub IH|].
    kid IH. text. apply agree_cons; [|nil_rest]. apply agree_opt. intros [c fl] _. unfold t_overflow.
    apply agree_object; [done_plain|]. apply agree_cons; [unfold d_counts; destruct c; now apply agree_member|]. text. nil_rest.
  - ty_first. kid IH. apply agree_cons; [|nil_rest]. apply agree_opt. intros [] _; now apply agree_member.
  - ty_first. rewrite entries_app. apply shows_app; [apply fine_qattrs; sub IH|].
    kid_list IH. opt_kid IH. opt_kid IH.
    apply agree_cons; [apply agree_opt; intros ? ->; apply agree_groupby; [done_plain|sub IH]|].
    opt_kid IH. apply agree_cons; [now apply agree_quantifier|].
    apply agree_cons; [apply agree_named; [done_plain|sub IH]|]. nil_rest.
  - ty_first. rewrite entries_app. apply shows_app; [apply fine_qattrs; sub IH|].
    kid IH. kid IH. apply agree_cons; [now apply agree_quantifier|]. nil_rest.
  - ty_first. rewrite entries_app. apply shows_app; [apply fine_qattrs; sub IH|]. kid IH. nil_rest.
  - ty_first. rewrite entries_app. apply shows_app; [apply fine_qattrs; sub IH|]. kid_list IH. nil_rest.
  - cbn [attributes]. text. opt_text. opt_text. apply shows_skip; [apply (skip_hidden "column_schema")|nil_rest].
  - cbn [attributes]. kid IH. text. names. nil_rest.
  - cbn [attributes]. kid IH. kid IH. apply agree_cons; [|nil_rest]. apply agree_object; [done_plain|].
    apply agree_cons; [destruct jt; now apply agree_member|]. apply agree_cons; [now apply agree_bool|].
    apply agree_cons; [|nil_rest]. apply agree_opt. intros x ->. apply agree_crit; [done_plain|sub IH].
  - cbn [attributes]. kid_list IH. apply agree_cons; [now apply agree_bool|]. nil_rest.
  - cbn [attributes]. kid IH. nil_rest.
  - cbn [attributes]. kid IH. apply agree_cons; [destruct st; now apply agree_member|]. kid IH. nil_rest.
Qed.
