(** Structural comparison of trees (C31). *)
From Coq Require Import String List ZArith QArith Bool Lia.
From Verif Require Import PyStr Types TypeFacts Inference Functions Ast Tokens Printer Sql Equals NodeFacts
  PropertiesLiterals PropertiesResolve.
Import ListNotations.
Open Scope nat_scope.
Open Scope string_scope.
Open Scope list_scope.

(** * [==] of the dicts is equality *)
Lemma dval_ind' (P : dval -> Prop) :
  P DNone -> (forall s, P (DStr s)) -> (forall q, P (DNum q)) -> (forall r, P (DFloat r)) ->
  (forall n, P (DEnum n)) -> (forall l, Forall P l -> P (DList l)) ->
  (forall l, Forall (fun kv => P (snd kv)) l -> P (DDict l)) -> forall d, P d.
Proof.
  intros Hn Hs Hq Hf He Hl Hd. fix IH 1. intros [ |s|q|r|n|l|l].
  - exact Hn.
  - apply Hs.
  - apply Hq.
  - apply Hf.
  - apply He.
  - apply Hl. induction l; constructor; [apply IH|assumption].
  - apply Hd. induction l as [|[k v] r IHr]; constructor; [exact (IH v)|exact IHr].
Qed.

Lemma dval_eqb_eq a : forall b, dval_eqb a b = true <-> a = b.
Proof.
  induction a as [ |s|q|r|n|l IH|l IH] using dval_ind'; intros b; destruct b; cbn [dval_eqb];
    try (split; congruence).
  - rewrite String.eqb_eq; split; congruence.
  - destruct q as [n d], q0 as [n' d']. cbn [Qnum Qden].
    rewrite andb_true_iff, Z.eqb_eq, Pos.eqb_eq. split; [intros [-> ->]; reflexivity|].
    intros [= -> ->]; auto.
  - rewrite String.eqb_eq; split; congruence.
  - rewrite String.eqb_eq; split; congruence.
  - assert (E : forall l0,
      (fix go (l l' : list dval) {struct l} : bool :=
         match l, l' with
         | [], [] => true
         | x :: r, x' :: r' => (dval_eqb x x' && go r r')%bool
         | _, _ => false
         end) l l0 = true <-> l = l0).
    { induction IH as [|x r Hx _ IHr]; intros [|y s]; try (split; congruence).
      rewrite andb_true_iff, Hx, IHr. split; [intros [-> ->]; reflexivity|intros [= -> ->]; auto]. }
    rewrite E. split; congruence.
  - assert (E : forall l0,
      (fix go (l l' : list (string * dval)) {struct l} : bool :=
         match l, l' with
         | [], [] => true
         | (k, x) :: r, (k', x') :: r' => (String.eqb k k' && dval_eqb x x' && go r r')%bool
         | _, _ => false
         end) l l0 = true <-> l = l0).
    { induction IH as [|[k x] r Hx _ IHr]; intros [|[k' y] s]; try (split; congruence).
      cbn [snd] in Hx. rewrite !andb_true_iff, Hx, IHr, String.eqb_eq.
      split; [intros [[-> ->] ->]; reflexivity|intros [= -> -> ->]; auto]. }
    rewrite E. split; congruence.
Qed.

Definition real (e : node) : Prop := e <> NNone.
Lemma equals_iff a b :
  equals a b = true <-> real a /\ real b /\ class_of a = class_of b /\ asdict a = asdict b.
Proof.
  assert (E : real a -> real b ->
    equals a b = if cls_eq_dec (class_of a) (class_of b) then dval_eqb (asdict a) (asdict b) else false).
  { unfold real. intros Ha Hb. destruct a; try congruence; destruct b; try congruence; reflexivity. }
  split.
  - intros H.
    assert (Ha : real a) by (destruct a; [discriminate|..]; discriminate).
    assert (Hb : real b) by (destruct b; [destruct a; discriminate|..]; discriminate).
    rewrite (E Ha Hb) in H. destruct (cls_eq_dec _ _) as [C|]; [|discriminate].
    apply dval_eqb_eq in H. auto.
  - intros (Ha & Hb & C & D). rewrite (E Ha Hb).
    destruct (cls_eq_dec _ _); [|congruence]. now apply dval_eqb_eq.
Qed.

(** * An equivalence relation *)
Theorem C31_reflexive a : real a -> equals a a = true.
Proof. intros H. apply equals_iff. auto. Qed.
Theorem C31_symmetric a b : equals a b = equals b a.
Proof.
  destruct (equals a b) eqn:E.
  - symmetry. apply equals_iff in E. apply equals_iff. intuition congruence.
  - destruct (equals b a) eqn:E'; [|reflexivity]. apply equals_iff in E'.
    rewrite <- E. apply equals_iff. intuition congruence.
Qed.
Theorem C31_transitive a b c : equals a b = true -> equals b c = true -> equals a c = true.
Proof. rewrite !equals_iff. intuition congruence. Qed.

(** * What is told apart

    Something that is mentioned in a tree: a table with its qualified name, a
    column by its name, or a text literal. *)
Inductive item := ITable (n : string) (s c : option string) | IColumn (n : string) | IText (s : string).
Definition is_item (i : item) (e : node) : Prop :=
  match i, e with
  | ITable n s c, NTable n' s' c' => n = n' /\ s = s' /\ c = c'
  | IColumn n, NField n' _ _ => n = n'
  | IText s, NLit (LStr s') _ => s = s'
  | _, _ => False
  end.
Definition sum (l : list nat) : nat := fold_right Nat.add 0 l.
(** [i] is mentioned [n] times in the tree. *)
Inductive times (i : item) : node -> nat -> Prop :=
| times_here e ns : is_item i e -> Forall2 (times i) (kids e) ns -> times i e (S (sum ns))
| times_below e ns : ~ is_item i e -> Forall2 (times i) (kids e) ns -> times i e (sum ns).

(** The same, counted in the dicts. *)
Definition opt_name (o : option string) : dval := match o with None => DNone | Some s => DStr s end.
Definition marked (i : item) (l : list (string * dval)) : bool :=
  match i, l with
  | ITable n s c, [(k1, v1); (k2, v2); (k3, v3); _] =>
      (String.eqb k1 "name" && String.eqb k2 "schema" && dval_eqb v1 (DStr n)
       && dval_eqb v2 (opt_name s) && dval_eqb v3 (opt_name c))%bool
  | IColumn n, [_; (k2, v2); (k3, _)] =>
      (String.eqb k2 "name" && String.eqb k3 "table" && dval_eqb v2 (DStr n))%bool
  | IText s, [_; (k2, v2)] => (String.eqb k2 "value" && dval_eqb v2 (DStr s))%bool
  | _, _ => false
  end.
Definition one (b : bool) : nat := if b then 1 else 0.
Fixpoint dcount (i : item) (d : dval) : nat :=
  match d with
  | DList l => sum (map (dcount i) l)
  | DDict l => one (marked i l) + sum (map (fun kv => let '(_, v) := kv in dcount i v) l)
  | _ => 0
  end.
Definition dcount_kv (i : item) (kv : string * dval) : nat := let '(_, v) := kv in dcount i v.
Lemma dcount_dict i l : dcount i (DDict l) = one (marked i l) + sum (map (dcount_kv i) l).
Proof. reflexivity. Qed.
Lemma dcount_list i l : dcount i (DList l) = sum (map (dcount i) l).
Proof. reflexivity. Qed.
Lemma sum_app a b : sum (a ++ b) = sum a + sum b.
Proof. induction a as [|x a IH]; [reflexivity|]. unfold sum in *. cbn [app fold_right]. lia. Qed.
Lemma sum_cons x a : sum (x :: a) = x + sum a.
Proof. reflexivity. Qed.
Lemma sum_nil : sum [] = 0.
Proof. reflexivity. Qed.

(** No dict is a text. *)
Lemma asdict_not_text e s : dval_eqb (asdict e) (DStr s) = false.
Proof. destruct e; try reflexivity. cbn [asdict]. destruct (is_aggregate f); reflexivity. Qed.

Lemma sum_zero l : Forall (fun n => n = 0) l -> sum l = 0.
Proof. induction 1 as [|x r -> _ IH]; [reflexivity|exact IH]. Qed.
Ltac marks := cbn [marked String.eqb Ascii.eqb Bool.eqb andb one]; rewrite ?andb_false_r; cbn [one andb].
Ltac tallies :=
  repeat first
    [ rewrite dcount_dict | rewrite dcount_list
    | progress cbn [map app dcount_kv dcount d_opt]
    | rewrite map_app | rewrite sum_app | rewrite sum_cons | rewrite sum_nil | rewrite map_map ].
Lemma dcount_type i t : dcount i (d_type t) = 0.
Proof.
  induction t using dtype_ind'; cbn [d_type].
  all: try (destruct i; reflexivity).
  all: try (destruct m; destruct i; reflexivity).
  all: try (destruct p; destruct i; reflexivity).
  - tallies. rewrite IHt. destruct i; reflexivity.
  - tallies. rewrite IHt1, IHt2. destruct i; reflexivity.
  - tallies. rewrite (sum_zero (map (fun x => dcount i (d_type x)) l)) by now apply Forall_map.
    destruct i; reflexivity.
  - tallies. rewrite IHt. destruct i; reflexivity.
Qed.
Lemma dcount_ty i e : dcount_kv i (d_data_type e) = 0.
Proof. unfold d_data_type. cbn [dcount_kv]. destruct (data_type e); [apply dcount_type|reflexivity]. Qed.
Lemma dcount_lit i l : dcount i (d_lit l) = 0.
Proof. destruct l; reflexivity. Qed.
Lemma dcount_opt {A} i (f : A -> dval) o :
  dcount i (d_opt f o) = sum (map (fun x => dcount i (f x)) (opt_kids o)).
Proof. destruct o; cbn [d_opt opt_kids map]; rewrite ?sum_cons, ?sum_nil; cbn [dcount]; lia. Qed.
Lemma dcount_lst {A} i (f : A -> dval) l : dcount i (d_list f l) = sum (map (fun x => dcount i (f x)) l).
Proof. destruct l; [reflexivity|]. unfold d_list. rewrite dcount_list, map_map. reflexivity. Qed.

(** The parts that are not nodes. *)
Definition adds (i : item) (f : node -> dval) (ks : list node) : nat := sum (map (fun x => dcount i (f x)) ks).
Lemma adds_app i f a b : adds i f (a ++ b) = adds i f a + adds i f b.
Proof. unfold adds. rewrite map_app. apply sum_app. Qed.
Lemma adds_cons i f x a : adds i f (x :: a) = dcount i (f x) + adds i f a.
Proof. reflexivity. Qed.
Lemma adds_nil i f : adds i f [] = 0.
Proof. reflexivity. Qed.
Lemma adds_concat {A} i f (g : A -> list node) (h : A -> nat) l :
  (forall x, h x = adds i f (g x)) -> sum (map h l) = adds i f (concat (map g l)).
Proof.
  intros H. induction l as [|x l IH]; [reflexivity|]. cbn [map concat]. rewrite sum_cons, adds_app, H. lia.
Qed.
Lemma dcount_order i f o : dcount i (d_order f o) = adds i f [o_value o].
Proof.
  destruct o as [v d n]. cbn [d_order o_value]. rewrite adds_cons, adds_nil. tallies.
  destruct i; marks; lia.
Qed.
Lemma dcount_orders i f l : dcount i (d_list (d_order f) l) = adds i f (map o_value l).
Proof.
  rewrite dcount_lst. rewrite (adds_concat i f (fun o => [o_value o])) by (intro; apply dcount_order).
  now rewrite orders_kids.
Qed.
Lemma dcount_bound i f b : dcount i (d_bound f b) = adds i f (bound_kids b).
Proof.
  destruct b as [d v|d|]; cbn [d_bound bound_kids]; rewrite ?adds_cons, ?adds_nil; tallies;
    unfold d_dir; destruct i; marks; cbn [dcount]; lia.
Qed.
Lemma dcount_window i f w : dcount i (d_window f w) = adds i f (window_kids w).
Proof.
  destruct w as [p ob ps fr s e]. cbn [d_window window_kids]. tallies.
  rewrite !adds_app, dcount_orders, dcount_lst, !dcount_bound, dcount_opt. fold (adds i f ps).
  destruct p; destruct i; marks; cbn [map opt_kids dcount]; rewrite ?sum_cons, ?sum_nil; cbn [d_frame dcount];
  lia.
Qed.
Ltac smalls := cbn [map opt_kids dcount]; rewrite ?sum_cons, ?sum_nil; cbn [dcount]; try lia.
Lemma dcount_fopts i f fo : sum (map (dcount_kv i) (d_fopts f fo)) = adds i f (fopts_kids fo).
Proof.
  destruct fo as [ob fi wi ig]. cbn [d_fopts fopts_kids]. tallies.
  rewrite !adds_app, dcount_orders. destruct fi, wi; cbn [d_opt opt_kids]; rewrite ?dcount_window, ?adds_cons, ?adds_nil;
    cbn [dcount]; lia.
Qed.
Lemma dcount_qattrs i f q : sum (map (dcount_kv i) (d_qattrs f q)) = adds i f (qattrs_kids q).
Proof.
  destruct q as [wi ob off lim]. cbn [d_qattrs qattrs_kids]. tallies.
  rewrite !adds_app, dcount_orders, dcount_lst. fold (adds i f wi). destruct off, lim; cbn [d_opt d_int dcount]; lia.
Qed.
Lemma dcount_vals i f l : dcount i (DList (map f l)) = adds i f l.
Proof. rewrite dcount_list, map_map. reflexivity. Qed.
Lemma dcount_group i f g : dcount i (d_group f g) = adds i f (group_kids g).
Proof.
  destruct g as [l|ll|l|l]; cbn [d_group group_kids].
  2:{ rewrite dcount_dict. cbn [map dcount_kv]. rewrite sum_cons, sum_nil, dcount_list, map_map.
      rewrite (adds_concat i f (fun l => l)).
      - rewrite map_id. destruct i; marks; lia.
      - intro l. rewrite dcount_dict. cbn [map dcount_kv]. rewrite sum_cons, sum_nil, dcount_vals.
        destruct i; marks; lia. }
  all: rewrite dcount_dict; cbn [map dcount_kv]; rewrite sum_cons, sum_nil, dcount_vals; destruct i; marks; lia.
Qed.
Lemma dcount_groupby i f g : dcount i (d_groupby f g) = adds i f (groupby_kids g).
Proof.
  destruct g as [gs d]. cbn [d_groupby groupby_kids]. rewrite dcount_dict. cbn [map dcount_kv].
  rewrite !sum_cons, sum_nil, dcount_list, map_map.
  rewrite (adds_concat i f group_kids) by (intro; apply dcount_group).
  destruct i; unfold d_quantifier; marks; cbn [dcount]; lia.
Qed.
Lemma dcount_strs i l : dcount i (DList (map DStr l)) = 0.
Proof. rewrite dcount_list, map_map. apply sum_zero, Forall_map, Forall_forall. reflexivity. Qed.
Lemma dcount_crit i f c : dcount i (d_crit f c) = adds i f (jcrit_kids c).
Proof.
  destruct c as [cols|x]; cbn [d_crit jcrit_kids]; rewrite dcount_dict; cbn [map dcount_kv];
    rewrite sum_cons, sum_nil, ?dcount_strs, ?adds_cons, ?adds_nil; destruct i; marks; lia.
Qed.
Lemma dcount_tref i f t : dcount i (d_tref f t) = adds i f (tref_kids t).
Proof. destruct t; cbn [d_tref tref_kids]; rewrite ?adds_cons, ?adds_nil; cbn [dcount]; lia. Qed.
Definition no_text (v : dval) : Prop := forall s, dval_eqb v (DStr s) = false.
Lemma unmarked i l : Forall (fun kv => no_text (snd kv)) l -> marked i l = false.
Proof.
  unfold no_text. intros H. destruct i as [n s c|n|s]; cbn [marked].
  - destruct l as [|[k1 v1] [|[k2 v2] [|[k3 v3] [|? [|? ?]]]]]; try reflexivity.
    inversion H as [|? ? H1 _]; subst. cbn [snd] in H1. rewrite H1, andb_false_r. reflexivity.
  - destruct l as [|[k1 v1] [|[k2 v2] [|[k3 v3] [|? ?]]]]; try reflexivity.
    inversion H as [|? ? _ H1]; subst. inversion H1 as [|? ? H2 _]; subst. cbn [snd] in H2.
    now rewrite H2, andb_false_r.
  - destruct l as [|[k1 v1] [|[k2 v2] [|? ?]]]; try reflexivity.
    inversion H as [|? ? _ H1]; subst. inversion H1 as [|? ? H2 _]; subst. cbn [snd] in H2.
    now rewrite H2, andb_false_r.
Qed.
Lemma node_no_text e : no_text (asdict e).
Proof. exact (asdict_not_text e). Qed.
Lemma dcount_branch i cv : dcount i (d_branch asdict cv) = adds i asdict [fst cv; snd cv].
Proof.
  destruct cv as [c x]. cbn [d_branch fst snd]. rewrite dcount_dict, unmarked.
  - cbn [map dcount_kv one]. rewrite !sum_cons, sum_nil, !adds_cons, adds_nil. lia.
  - repeat constructor; apply node_no_text.
Qed.
Lemma dcount_else i (f : node -> dval) x : dcount i (d_else f x) = dcount i (f x).
Proof.
  unfold d_else. rewrite dcount_dict. cbn [map dcount_kv]. rewrite !sum_cons, sum_nil. destruct i; marks; lia.
Qed.
Lemma insert_sum h kv l : sum (map h (insert_key kv l)) = h kv + sum (map h l).
Proof.
  induction l as [|kv' l IH]; [reflexivity|]. cbn [insert_key]. destruct (String.leb _ _); cbn [map]; rewrite !sum_cons.
  - reflexivity.
  - rewrite IH. lia.
Qed.
Lemma sort_sum h l : sum (map h (sort_keys l)) = sum (map h l).
Proof.
  induction l as [|kv l IH]; [reflexivity|]. cbn [sort_keys fold_right]. rewrite insert_sum. cbn [map].
  rewrite sum_cons. fold (sort_keys l). lia.
Qed.
Lemma insert_all (P : string * dval -> Prop) kv l : P kv -> Forall P l -> Forall P (insert_key kv l).
Proof.
  intros H. induction 1 as [|kv' l H' HF IH]; cbn [insert_key]; [now repeat constructor|].
  destruct (String.leb _ _); repeat constructor; auto.
Qed.
Lemma sort_all (P : string * dval -> Prop) l : Forall P l -> Forall P (sort_keys l).
Proof. induction 1 as [|kv l H _ IH]; [constructor|]. cbn [sort_keys fold_right]. now apply insert_all. Qed.
Lemma dcount_windows i f ws :
  dcount i (DDict (sort_keys (map (d_named f) ws))) = adds i f (concat (map (fun nw => window_kids (snd nw)) ws)).
Proof.
  rewrite dcount_dict, unmarked.
  - cbn [one]. rewrite sort_sum, map_map. apply adds_concat. intros [n w]. cbn [d_named dcount_kv snd].
    apply dcount_window.
  - apply sort_all, Forall_map, Forall_forall. intros [n w] _ s. destruct w. reflexivity.
Qed.
Lemma dcount_named_args i names vals :
  length vals <= length names -> sum (map (dcount_kv i) (named_args names vals)) = sum (map (dcount i) vals).
Proof.
  revert vals. induction names as [|k names IH]; intros [|v vals] H; cbn [length] in H; try lia; try reflexivity.
  - cbn [named_args map dcount_kv]. rewrite sum_cons, IH by (cbn [length]; lia). reflexivity.
  - cbn [named_args map dcount_kv]. rewrite !sum_cons, IH by lia. reflexivity.
Qed.
Lemma named_args_no_text names vals :
  Forall no_text vals -> Forall (fun kv => no_text (snd kv)) (named_args names vals).
Proof.
  revert vals. induction names as [|k names IH]; intros vals H; destruct H as [|v vals Hv H]; cbn [named_args];
    constructor; try (apply IH; auto); try exact Hv. intro; reflexivity.
Qed.
Lemma asdicts_no_text l : Forall no_text (map asdict l).
Proof. apply Forall_map, Forall_forall. intros; apply node_no_text. Qed.
Lemma fn_args_no_text f l : Forall (fun kv => no_text (snd kv)) (fn_args f (map asdict l)).
Proof.
  unfold fn_args. destruct (fn_variadic f).
  - constructor; [intro; reflexivity|constructor].
  - apply named_args_no_text, asdicts_no_text.
Qed.
Lemma fn_arity_attrs f n : arity_ok f n = true -> fn_variadic f = false -> n <= length (fn_attrs f).
Proof.
  unfold arity_ok. destruct f; cbn [fn_arity fn_variadic fn_attrs length]; intros H V; try discriminate V;
    apply andb_true_iff in H as [_ H]; apply Nat.leb_le in H; lia.
Qed.
Lemma dcount_fn_args i f l : arity_ok f (length l) = true ->
  sum (map (dcount_kv i) (fn_args f (map asdict l))) = adds i asdict l.
Proof.
  intros H. unfold fn_args. destruct (fn_variadic f) eqn:V.
  - cbn [map dcount_kv]. rewrite sum_cons, sum_nil, dcount_vals. lia.
  - rewrite dcount_named_args by (rewrite map_length; now apply fn_arity_attrs).
    unfold adds. now rewrite map_map.
Qed.

Definition itemb (i : item) (e : node) : bool :=
  match i, e with
  | ITable n s c, NTable n' s' c' =>
      (String.eqb n' n && dval_eqb (opt_name s') (opt_name s) && dval_eqb (opt_name c') (opt_name c))%bool
  | IColumn n, NField n' _ _ => String.eqb n' n
  | IText s, NLit (LStr s') _ => String.eqb s' s
  | _, _ => false
  end.
Lemma opt_name_eqb a b : dval_eqb (opt_name a) (opt_name b) = true <-> a = b.
Proof. rewrite dval_eqb_eq. destruct a, b; cbn [opt_name]; split; congruence. Qed.
Lemma itemb_iff i e : itemb i e = true <-> is_item i e.
Proof.
  destruct i as [n s c|n|s], e; cbn [itemb is_item]; try (split; [discriminate|tauto]).
  - rewrite !andb_true_iff, !opt_name_eqb, String.eqb_eq. intuition congruence.
  - rewrite String.eqb_eq. intuition congruence.
  - destruct l; try (split; [discriminate|tauto]). rewrite String.eqb_eq. intuition congruence.
Qed.
Lemma ty_no_text e : no_text (snd (d_data_type e)).
Proof. unfold d_data_type. cbn [snd]. destruct (data_type e) as [[]|]; intro; reflexivity. Qed.

Definition d_ty (e : node) : dval := match data_type e with Ok t => d_type t | Err _ => DNone end.
Lemma d_ty_pair e : d_data_type e = ("data_type", d_ty e).
Proof. reflexivity. Qed.
Lemma dcount_d_ty i e : dcount i (d_ty e) = 0.
Proof. exact (dcount_ty i e). Qed.
Lemma not_text e s : dval_eqb (asdict e) (DStr s) = false.
Proof. apply asdict_not_text. Qed.

Ltac known :=
  rewrite ?dcount_d_ty, ?dcount_lit, ?dcount_vals, ?dcount_strs, ?dcount_tref, ?dcount_window,
    ?dcount_qattrs, ?dcount_fopts, ?dcount_groupby, ?dcount_crit, ?dcount_orders, ?dcount_windows,
    ?adds_app, ?adds_cons, ?adds_nil.
Ltac counted :=
  rewrite ?d_ty_pair, ?dcount_dict; cbn [map app dcount_kv];
  rewrite ?map_app, ?sum_app; cbn [map dcount_kv]; rewrite ?sum_cons, ?sum_nil; known; cbn [dcount];
  try (match goal with i : item |- _ => destruct i end; marks; cbn [itemb one];
       rewrite ?not_text; cbn [andb one]; lia).

Lemma dcount_dopt i f o : dcount i (d_opt f o) = adds i f (opt_kids o).
Proof. apply dcount_opt. Qed.
Lemma dcount_optstr i o : dcount i (d_opt DStr o) = 0.
Proof. destruct o; reflexivity. Qed.
Lemma dcount_num i z : dcount i (d_int z) = 0.
Proof. reflexivity. Qed.
Lemma dcount_bool i b : dcount i (d_bool b) = 0.
Proof. reflexivity. Qed.
Lemma long_unmarked i ty a b c d l : marked i (ty :: a :: b :: c :: d :: l) = false.
Proof. destruct ty, a, b, c, d, i; reflexivity. Qed.
Lemma fopts_unmarked i ty (f : node -> dval) fo l : marked i (ty :: d_fopts f fo ++ l) = false.
Proof. destruct fo. apply long_unmarked. Qed.
Lemma qattrs_unmarked i ty (f : node -> dval) q l : marked i (ty :: d_qattrs f q ++ l) = false.
Proof. destruct q. apply long_unmarked. Qed.
Lemma fn_unmarked i f args fo : marked i (("data_type", d_ty (NFunc f args fo)) :: fn_args f (map asdict args)) = false.
Proof.
  apply unmarked. constructor; [|apply fn_args_no_text]. exact (ty_no_text (NFunc f args fo)).
Qed.
Ltac byitem := match goal with i : item |- _ => destruct i end; marks; cbn [itemb one andb]; try lia.

Lemma dcount_node i e : built e -> dcount i (asdict e) = one (itemb i e) + adds i asdict (kids e).
Proof.
  intros [ty B]. destruct e; cbn [asdict kids]; counted; rewrite ?dcount_dopt, ?dcount_optstr, ?dcount_num, ?dcount_bool.
  - (* NLit *) byitem. destruct l; cbn [d_lit dval_eqb d_int d_bool]; cbn [one]; lia.
  - (* NField *) byitem. cbn [dval_eqb]. lia.
  - (* NLambda *) rewrite map_map, sum_zero.
    + byitem.
    + apply Forall_map, Forall_forall. intros x _. rewrite dcount_dict. cbn [map dcount_kv].
      rewrite dcount_type. byitem; reflexivity.
  - byitem.
  - byitem.
  - (* NCase *) rewrite map_map.
    rewrite (adds_concat i asdict (fun cv => [fst cv; snd cv])) by (intro; apply dcount_branch).
    assert (E : adds i (d_else asdict) (opt_kids else_) = adds i asdict (opt_kids else_)).
    { destruct else_; [|reflexivity]. cbn [opt_kids]. rewrite !adds_cons, !adds_nil, dcount_else. lia. }
    rewrite E. byitem.
  - (* NFunc *)
    cbn [check] in B. unfold some in B. unbind.
    destruct (fn_special f); [discriminate|]. destruct (arity_ok f (length args)) eqn:A; [|discriminate].
    cbn [negb] in B.
    assert (I : itemb i (NFunc f args fo) = false) by (destruct i; reflexivity). rewrite I.
    destruct (is_aggregate f).
    + rewrite dcount_dict, fopts_unmarked. cbn [map dcount_kv]. rewrite dcount_d_ty, sum_cons, map_app, sum_app,
        dcount_fopts, dcount_fn_args by assumption. cbn [one]. lia.
    + cbn [negb andb] in B. destruct fo as [[|] [|] [|] [|]]; cbn [fopts_empty negb] in B; try discriminate.
      rewrite dcount_dict, fn_unmarked. cbn [map dcount_kv fopts_kids opt_kids app].
      rewrite dcount_d_ty, sum_cons, dcount_fn_args, adds_nil by assumption. cbn [one]. lia.
  - byitem.
  - (* NListAgg *) rewrite fopts_unmarked, sum_app, dcount_fopts. cbn [fopts_kids opt_kids app].
    rewrite !sum_cons, sum_nil, !app_nil_r.
    assert (I : itemb i (NListAgg e sep overflow orderby) = false) by (destruct i; reflexivity). rewrite I.
    destruct overflow as [[c fl]|]; cbn [d_opt]; [|cbn [dcount one]; lia].
    rewrite dcount_dict. cbn [map dcount_kv]. rewrite !sum_cons, sum_nil. unfold d_counts. byitem; cbn [dcount]; lia.
  - (* NNormalize *) destruct form; cbn [d_opt dcount]; byitem.
  - (* NSelect *) rewrite qattrs_unmarked, sum_app, dcount_qattrs.
    rewrite !sum_cons, sum_nil, ?dcount_dopt.
    assert (I : itemb i (NSelect select from_ wh gb having distinct windows qa) = false) by (destruct i; reflexivity).
    rewrite I.
    assert (G : dcount i (d_opt (d_groupby asdict) gb)
                = adds i asdict match gb with Some g => groupby_kids g | None => [] end).
    { destruct gb; [apply dcount_groupby|reflexivity]. }
    assert (W : dcount i match windows with [] => DNone | _ :: _ => DDict (sort_keys (map (d_named asdict) windows)) end
                = adds i asdict (concat (map (fun nw => window_kids (snd nw)) windows))).
    { destruct windows; [reflexivity|]. apply dcount_windows. }
    rewrite G, W. cbn [one d_quantifier dcount]. lia.
  - rewrite qattrs_unmarked, sum_app, dcount_qattrs. rewrite !sum_cons, sum_nil. destruct i; cbn [itemb one d_quantifier dcount]; lia.
  - rewrite qattrs_unmarked, sum_app, dcount_qattrs. rewrite !sum_cons, sum_nil. destruct i; cbn [itemb one d_quantifier dcount]; lia.
  - rewrite qattrs_unmarked, sum_app, dcount_qattrs. rewrite !sum_cons, sum_nil. destruct i; cbn [itemb one d_quantifier dcount]; lia.
  - (* NTable *) cbn [map dcount dval_eqb]. rewrite !sum_cons, ?sum_nil.
    destruct i; marks; cbn [itemb one dval_eqb]; change (d_opt DStr) with opt_name; cbn [itemb one dval_eqb andb];
      try lia.
  - (* NAliasedRel *) rewrite dcount_lst, sum_zero by now (apply Forall_map, Forall_forall). byitem.
  - (* NJoin *)
    assert (C : dcount i (d_opt (d_crit asdict) crit)
                = adds i asdict match crit with Some x => jcrit_kids x | None => [] end).
    { destruct crit; [apply dcount_crit|reflexivity]. }
    cbn [map]. rewrite !sum_cons, sum_nil, C, dcount_bool.
    destruct jt; byitem; cbn [d_join_type dcount]; lia.
  - byitem.
Qed.

Lemma times_dcount i e : built e -> forall n, times i e n <-> n = dcount i (asdict e).
Proof.
  induction e as [e IH] using kids_ind. intros B n. pose proof (parts_built e B) as BK.
  assert (A : forall ns, Forall2 (times i) (kids e) ns <-> ns = map (fun x => dcount i (asdict x)) (kids e)).
  { revert IH BK. generalize (kids e) as ks. induction ks as [|k ks IHk]; intros IH BK ns.
    - split; [inversion 1; reflexivity|intros ->; constructor].
    - inversion BK as [|? ? B1 B2]; subst. specialize (IHk (fun x H => IH x (or_intror H)) B2). cbn [map]. split.
      + inversion 1 as [|? m ? ms T TS]; subst. apply IH in T; [|now left|exact B1]. apply IHk in TS. congruence.
      + intros ->. constructor; [|now apply IHk]. apply IH; [now left|exact B1|reflexivity]. }
  rewrite (dcount_node i e B). unfold adds. split.
  - inversion 1 as [e' ns I T|e' ns I T]; subst; apply A in T; subst.
    + apply itemb_iff in I. rewrite I. reflexivity.
    + destruct (itemb i e) eqn:J; [|reflexivity]. now apply itemb_iff in J.
  - intros ->. destruct (itemb i e) eqn:J; cbn [one Nat.add].
    + apply times_here; [now apply itemb_iff|now apply A].
    + apply times_below; [rewrite <- itemb_iff; congruence|now apply A].
Qed.

(** Every tree mentions every item a definite number of times. *)
Theorem C31_times i e : built e -> exists n, times i e n /\ forall m, times i e m -> m = n.
Proof.
  intros B. exists (dcount i (asdict e)). split; [now apply times_dcount|].
  intros m H. now apply (times_dcount i e B) in H.
Qed.
Print Assumptions C31_times.

(** Trees that compare equal have a root of the same class and the same data
    type, and mention the same tables, columns and texts equally often. *)
Lemma simple_name_inj s s' : simple_name s = simple_name s' -> s = s'.
Proof. destruct s, s'; intros E; try reflexivity; discriminate E. Qed.
Lemma d_type_name t u : d_type t = d_type u -> type_name t = type_name u.
Proof.
  assert (H : forall t, exists ps, d_type t = DDict [("type_name", DStr (type_name t)); ps]).
  { intros []; eexists; reflexivity. }
  destruct (H t) as [ps ->], (H u) as [ps' ->]. intros [= E _]. exact E.
Qed.
Lemma d_type_inj : forall t u, d_type t = d_type u -> t = u.
Proof.
  induction t as [s|p s|m|m|p z|p z|k|t IH|k v IHk IHv|l IH|t IH] using dtype_ind'; intros u E;
    pose proof (d_type_name _ _ E) as N; destruct u as [s'|p' s'|m'|m'|p' z'|p' z'|k'|t'|k' v'|l'|t'];
    cbn [type_name] in N; try discriminate N;
    try (destruct s; discriminate N); try (destruct s'; discriminate N); cbn [d_type] in E.
  - now rewrite (simple_name_inj s s').
  - injection E as -> ->. reflexivity.
  - destruct m, m'; try discriminate E; [injection E as ->|]; reflexivity.
  - injection E as ->. reflexivity.
  - destruct p, p', z, z'; try discriminate E; try reflexivity; injection E as ->; reflexivity.
  - destruct p, p', z, z'; try discriminate E; try reflexivity; injection E as ->; reflexivity.
  - destruct k, k'; try discriminate E; reflexivity.
  - injection E as E. now rewrite (IH t').
  - injection E as E E'. now rewrite (IHk k'), (IHv v').
  - injection E as E. f_equal. revert l' N E. induction IH as [|x l Hx _ IHl]; intros [|x' l'] _ E; try discriminate E.
    + reflexivity.
    + cbn [map] in E. injection E as E1 E2. rewrite (Hx x' E1), (IHl l' eq_refl E2). reflexivity.
  - injection E as E. now rewrite (IH t').
Qed.
Definition first_value (d : dval) : dval := match d with DDict ((_, v) :: _) => v | _ => DNone end.
Lemma first_is_type a : is_value a = true -> first_value (asdict a) = d_ty a.
Proof.
  intros V. destruct a; try discriminate V; cbn [asdict]; try reflexivity. destruct (is_aggregate f); reflexivity.
Qed.
Lemma class_value a b : class_of a = class_of b -> is_value a = is_value b.
Proof. intros C. destruct a, b; try reflexivity; discriminate C. Qed.
Lemma same_data_type a b : is_value a = true -> class_of a = class_of b -> asdict a = asdict b -> d_ty a = d_ty b.
Proof.
  intros V C D. rewrite <- (first_is_type a V), D. apply first_is_type. now rewrite <- (class_value a b C).
Qed.
Lemma value_typed a : is_value a = true -> check a = Ok None -> False.
Proof.
  intros V B. destruct a; try discriminate V; cbn [check] in B; unfold some in B; unbind; try discriminate B.
  all: repeat match type of B with
    | context [match ?x with _ => _ end] => destruct x; cbn [bind] in B; unbind; try discriminate B
    end.
Qed.
Theorem C31_same_root a b : built a -> built b -> is_value a = true -> equals a b = true ->
  class_of a = class_of b /\ data_type a = data_type b.
Proof.
  intros [ta Ba] [tb Bb] V E. apply equals_iff in E as (_ & _ & C & D). split; [exact C|].
  pose proof (same_data_type a b V C D) as T. unfold d_ty in T.
  destruct (data_type a) as [t|x] eqn:Ea; [|].
  2:{ exfalso. revert Ea. unfold data_type. rewrite Ba. destruct ta; [discriminate|].
      intros _. apply (value_typed a V Ba). }
  destruct (data_type b) as [u|x] eqn:Eb.
  - now rewrite (d_type_inj t u T).
  - destruct t; discriminate T.
Qed.
Print Assumptions C31_same_root.
Theorem C31_same_items a b i n : built a -> built b -> equals a b = true -> times i a n -> times i b n.
Proof.
  intros Ba Bb E T. apply equals_iff in E as (_ & _ & _ & D).
  apply (times_dcount i b Bb). rewrite <- D. now apply (times_dcount i a Ba).
Qed.
Print Assumptions C31_same_items.

(** * Where it is exact: columns, and joins of tables and aliases without ON *)
Inductive plain : node -> Prop :=
| plain_table n s c : plain (NTable n s c)
| plain_alias r a cols : plain r -> plain (NAliasedRel r a cols)
| plain_join l r jt nat crit : plain l -> plain r ->
    (forall c, crit = Some c -> exists cols, c = JUsing cols) -> plain (NJoin l r jt nat crit).
Lemma strs_inj l l' : map DStr l = map DStr l' -> l = l'.
Proof.
  revert l'. induction l as [|x l IH]; intros [|y l'] E; try discriminate E; [reflexivity|].
  cbn [map] in E. injection E as -> E. now rewrite (IH l' E).
Qed.
Lemma list_strs_inj l l' : d_list DStr l = d_list DStr l' -> l = l'.
Proof.
  destruct l, l'; intros E; try discriminate E; [reflexivity|]. unfold d_list in E. injection E as E1 E2. subst.
  now apply strs_inj in E2 as ->.
Qed.
Lemma opt_str_inj o o' : d_opt DStr o = d_opt DStr o' -> o = o'.
Proof. destruct o, o'; cbn [d_opt]; congruence. Qed.
Lemma plain_exact a : plain a -> forall b, plain b -> asdict a = asdict b -> a = b.
Proof.
  induction 1 as [n s c|r al cols Hr IH|l r jt nat crit Hl IHl Hr IHr Hc]; intros b Hb E;
    destruct Hb as [n' s' c'|r' al' cols' Hr'|l' r' jt' nat' crit' Hl' Hr' Hc']; cbn [asdict] in E; try discriminate E.
  - injection E as -> E1 E2. now rewrite (opt_str_inj s s'), (opt_str_inj c c').
  - injection E as E1 -> E2. now rewrite (IH r' Hr' E1), (list_strs_inj cols cols').
  - injection E as E1 E2 E3 E4 E5. rewrite (IHl l' Hl' E1), (IHr r' Hr' E2).
    assert (jt = jt') as -> by (destruct jt, jt'; try discriminate E3; reflexivity).
    assert (nat = nat') as -> by (destruct nat, nat'; try discriminate E4; reflexivity).
    destruct crit as [c|], crit' as [c'|]; cbn [d_opt] in E5; try reflexivity.
    + destruct (Hc c eq_refl) as [cols ->], (Hc' c' eq_refl) as [cols' ->]. cbn [d_crit] in E5.
      injection E5 as E5. now rewrite (strs_inj cols cols').
    + destruct (Hc c eq_refl) as [cols ->]. discriminate E5.
    + destruct (Hc' c' eq_refl) as [cols' ->]. discriminate E5.
Qed.
Theorem C31_exact_on_joins a b : plain a -> plain b -> (equals a b = true <-> a = b).
Proof.
  intros Ha Hb. rewrite equals_iff. split; [intros (_ & _ & _ & E); now apply plain_exact|].
  intros ->. destruct Hb; (split; [discriminate|]; split; [discriminate|]; auto).
Qed.
Print Assumptions C31_exact_on_joins.
Theorem C31_exact_on_columns n n' tr tr' t t' :
  (forall v, tr <> TRVal v) -> (forall v, tr' <> TRVal v) ->
  (equals (NField n tr t) (NField n' tr' t') = true <-> n = n' /\ tr = tr' /\ t = t').
Proof.
  intros H H'. rewrite equals_iff. split.
  - intros (_ & _ & _ & E). cbn [asdict] in E. unfold d_data_type in E.
    assert (T : forall n tr t, (forall v, tr <> TRVal v) -> data_type (NField n tr t) = Ok t).
    { intros n0 tr0 t0 H0. unfold data_type. destruct tr0; [reflexivity|reflexivity|now elim (H0 v)]. }
    rewrite !T in E by assumption. injection E as E1 -> E2. apply d_type_inj in E1.
    destruct tr as [| |v], tr' as [| |v']; try discriminate E2; try (now elim (H v)); try (now elim (H' v')).
    + auto.
    + injection E2 as ->. auto.
  - intros (-> & -> & ->). repeat split; discriminate.
Qed.
Print Assumptions C31_exact_on_columns.

(** * What is not told apart

    Below the root the class is lost: the clauses of a query may be replaced by
    others with the same dict. *)
Definition alike (x y : node) : Prop := asdict x = asdict y /\ data_type x = data_type y.
Lemma select_alike sel sel' fr wh wh' gb hv hv' d ws qa :
  Forall2 alike sel sel' -> d_opt asdict wh = d_opt asdict wh' -> d_opt asdict hv = d_opt asdict hv' ->
  built (NSelect sel fr wh gb hv d ws qa) -> built (NSelect sel' fr wh' gb hv' d ws qa) ->
  equals (NSelect sel fr wh gb hv d ws qa) (NSelect sel' fr wh' gb hv' d ws qa) = true.
Proof.
  intros S W V [t B] [t' B']. apply equals_iff. split; [discriminate|]. split; [discriminate|]. split; [reflexivity|].
  assert (T : data_type (NSelect sel fr wh gb hv d ws qa) = data_type (NSelect sel' fr wh' gb hv' d ws qa)).
  { assert (E : each (fun x => tyof (check x)) sel = each (fun x => tyof (check x)) sel').
    { clear B B'. induction S as [|x y sel sel' [_ X] _ IH]; [reflexivity|]. cbn [each]. unfold data_type in X.
      rewrite X. destruct (tyof (check y)); cbn [bind]; [|reflexivity]. now rewrite IH. }
    unfold data_type. rewrite B, B'. cbn [check] in B, B'. rewrite E in B. unbind. congruence. }
  cbn [asdict]. unfold d_data_type. rewrite T, W, V.
  assert (map asdict sel = map asdict sel') as ->; [|reflexivity].
  clear -S. induction S as [|x y l l' [X _] _ IH]; [reflexivity|]. cbn [map]. congruence.
Qed.
Lemma alike_refl x : alike x x.
Proof. split; reflexivity. Qed.
Lemma alikes_refl l : Forall2 alike l l.
Proof. induction l; constructor; auto using alike_refl. Qed.

(** The operators whose result is a truth value. *)
Definition tests : list binop := [BEq; BNe; BGt; BGe; BLt; BLe; BAnd; BOr; BDistinct].
Lemma test_type op a b : In op tests -> binop_type op a b = Ok boolean.
Proof. cbn [tests In]. intuition (subst; reflexivity). Qed.
Lemma tests_alike op op' l r : In op tests -> In op' tests -> alike (NBin op l r) (NBin op' l r).
Proof.
  intros H H'. assert (T : data_type (NBin op l r) = data_type (NBin op' l r)).
  { unfold data_type. cbn [check]. destruct (wrapped l _); cbn [bind]; [|reflexivity].
    destruct (wrapped r _); cbn [bind]; [|reflexivity]. now rewrite !test_type by assumption. }
  split; [|exact T]. cbn [asdict]. unfold d_data_type. now rewrite T.
Qed.
(** WHERE a = b and WHERE a <> b (or a AND b, ...) are the same. *)
Theorem C31_where_confused sel fr op op' l r gb hv d ws qa :
  let q o := NSelect sel fr (Some (NBin o l r)) gb hv d ws qa in
  In op tests -> In op' tests -> built (q op) -> built (q op') -> equals (q op) (q op') = true.
Proof.
  cbv zeta. intros H H' B B'. apply select_alike; [apply alikes_refl| |reflexivity|exact B|exact B'].
  cbn [d_opt]. now apply tests_alike.
Qed.
Print Assumptions C31_where_confused.
(** CAST and TRY_CAST are the same in a SELECT list. *)
Theorem C31_cast_confused v t fr wh gb hv d ws qa :
  let q tr := NSelect [NCast tr v t] fr wh gb hv d ws qa in
  built (q false) -> built (q true) -> equals (q false) (q true) = true.
Proof. cbv zeta. intros B B'. apply select_alike; try reflexivity; try assumption. repeat constructor. Qed.
Print Assumptions C31_cast_confused.
(** Functions with the same parameters and the same result. *)
Definition same_signature : list (list fn) :=
  [[FMin; FMax]; [FSum; FArbitrary; FMapUnion]; [FBoolAnd; FBoolOr; FEvery]; [FBitwiseAndAgg; FBitwiseOrAgg; FCountIf];
   [FAvg; FGeometricMean]; [FSkewness; FStdDev; FStdDevPop; FStdDevSamp; FVariance; FVarPop; FVarSamp];
   [FCorr; FCovarPop; FCovarSamp; FKurtosis; FRegrIntercept; FRegrSlope];
   [FLower; FReverse; FLTrim; FRTrim; FSoundex]; [FLPad; FRPad]; [FHammingDistance; FLevenshteinDistance];
   [FAtTimezone; FWithTimezone]; [FDate; FLastDayOfMonth; FFromISO8601Date];
   [FCurrentUser; FCurrentCatalog; FCurrentSchema; FCurrentPath]].
Theorem C31_functions_confused g f f' args fo fr wh gb hv d ws qa :
  let q h := NSelect [NFunc h args fo] fr wh gb hv d ws qa in
  In g same_signature -> In f g -> In f' g -> built (q f) -> built (q f') -> equals (q f) (q f') = true.
Proof.
  cbv zeta. intros G F F' B B'. apply select_alike; try reflexivity; try assumption.
  constructor; [|constructor].
  assert (T : data_type (NFunc f args fo) = data_type (NFunc f' args fo)).
  { assert (C : forall h, In h g -> count_ok h args fo = true).
    { intros h Hh. cbn [same_signature In] in G. intuition (subst; cbn [In] in Hh; intuition (subst; reflexivity)). }
    assert (S : forall h, In h g -> fn_special h = false).
    { intros h Hh. cbn [same_signature In] in G. intuition (subst; cbn [In] in Hh; intuition (subst; reflexivity)). }
    assert (A : is_aggregate f = is_aggregate f' /\ fn_arity f = fn_arity f' /\ forall ts, fn_type f ts = fn_type f' ts).
    { cbn [same_signature In] in G.
      intuition (subst; cbn [In] in F, F'; intuition (subst; reflexivity)). }
    destruct A as (A1 & A2 & A3). unfold data_type. cbn [check]. unfold arity_ok.
    rewrite !C, !S, A1, A2 by assumption. destruct (each _ args); cbn [bind]; [|reflexivity].
    rewrite A3. reflexivity. }
  split; [|exact T]. cbn [asdict]. unfold d_data_type. rewrite T.
  assert (A : is_aggregate f = is_aggregate f' /\ forall l, fn_args f l = fn_args f' l).
  { cbn [same_signature In] in G. intuition (subst; cbn [In] in F, F'; intuition (subst; reflexivity)). }
  destruct A as [-> A]. now rewrite A.
Qed.
Print Assumptions C31_functions_confused.
(** GROUP BY CUBE (l), GROUP BY ROLLUP (l) and GROUP BY (l) are the same. *)
Theorem C31_group_confused sel fr wh l distinct hv d ws qa :
  let q g := NSelect sel fr wh (Some (mkG [g] distinct)) hv d ws qa in
  built (q (GCube l)) ->
  equals (q (GCube l)) (q (GRollup l)) = true /\ equals (q (GCube l)) (q (GSet l)) = true.
Proof.
  cbv zeta. intros [t B].
  assert (T : data_type (NSelect sel fr wh (Some (mkG [GCube l] distinct)) hv d ws qa)
              = data_type (NSelect sel fr wh (Some (mkG [GRollup l] distinct)) hv d ws qa)) by reflexivity.
  assert (T' : data_type (NSelect sel fr wh (Some (mkG [GCube l] distinct)) hv d ws qa)
              = data_type (NSelect sel fr wh (Some (mkG [GSet l] distinct)) hv d ws qa)).
  { unfold data_type. rewrite B. cbn [check] in B |- *. unbind.
    repeat match goal with H : ?m = Ok _ |- context [?m] => rewrite H end. cbn [bind].
    cbn [opt_ok groupby_ok all_ok each group_ok] in *. unfold all_ok in *. cbn [each group_ok] in *. unbind.
    repeat match goal with H : ?m = Ok _ |- context [?m] => rewrite H; cbn [bind] end.
    reflexivity. }
  split; apply equals_iff; (split; [discriminate|]; split; [discriminate|]; split; [reflexivity|]); cbn [asdict];
    unfold d_data_type; rewrite <- ?T, <- ?T'; reflexivity.
Qed.
Print Assumptions C31_group_confused.

(** Cases. *)
Local Definition qw (o : binop) : node :=
  NSelect [NFunc FMax [NField "x" (TRStr "t") integer] no_fopts; column "y"]
    (Some (NJoin (NTable "t" (Some "s") None) (NAliasedRel (NTable "u" None None) "v" ["y"; "z"]) JLeft false
                 (Some (JUsing ["k"]))))
    (Some (NBin o (column "y") (NLit (LStr "it") (TVarchar (Some 2%Z))))) (Some (mkG [GCube [column "y"]] false))
    None true [("w", mkWindow None [mkOrder (column "y") true false] [] FTRows (BUnbounded false) BCurrent)] no_qattrs.
Example C31_case_built : built (qw BEq) /\ built (qw BNe) /\ In BEq tests /\ In BNe tests.
Proof. split; [now eexists|]. split; [now eexists|]. cbn [tests In]. auto. Qed.
(** Trees that differ in their text but compare equal. *)
Theorem C31_refuted : exists a b s s', built a /\ built b /\ equals a b = true
  /\ to_sql default_opts a = Ok s /\ to_sql default_opts b = Ok s' /\ s <> s'.
Proof.
  exists (qw BEq), (qw BNe). do 2 eexists. split; [now eexists|]. split; [now eexists|].
  split; [vm_compute; reflexivity|]. split; [vm_compute; reflexivity|]. split; [vm_compute; reflexivity|discriminate].
Qed.
Print Assumptions C31_refuted.
Example C31_case_times : times (IColumn "y") (qw BEq) 4 /\ times (ITable "t" (Some "s") None) (qw BEq) 1
  /\ times (IText "it") (qw BEq) 1 /\ times (ITable "t" None None) (qw BEq) 0.
Proof.
  assert (B : built (qw BEq)) by now eexists.
  repeat split; apply (times_dcount _ _ B); vm_compute; reflexivity.
Qed.
Local Definition jt (k : string) : node :=
  NJoin (NAliasedRel (NTable "t" (Some "s") None) "a" []) (NJoin (NTable "t" None None) (NTable "u" None None) JInner true None)
    JOuter false (Some (JUsing [k; "y"])).
Example C31_case_joins : plain (jt "x") /\ plain (jt "z") /\ equals (jt "x") (jt "z") = false /\ equals (jt "x") (jt "x") = true.
Proof.
  assert (P : forall k, plain (jt k)).
  { intro k. unfold jt. repeat constructor; try discriminate. intros c [= <-]. now eexists. }
  split; [apply P|]. split; [apply P|]. each_part.
Qed.
(** SELECT MIN(x), SELECT MAX(x); SELECT CAST(x AS BIGINT), SELECT TRY_CAST(x AS BIGINT). *)
Local Definition q1 (x : node) : node := NSelect [x] (Some (NTable "t" None None)) None None None false [] no_qattrs.
Example C31_case_confused :
  let mm f := NFunc f [column "x"] no_fopts in
  let ct tr := NCast tr (column "x") bigint in
  built (q1 (mm FMin)) /\ built (q1 (mm FMax)) /\ equals (q1 (mm FMin)) (q1 (mm FMax)) = true
  /\ equals (mm FMin) (mm FMax) = false /\ equals (q1 (ct true)) (q1 (ct false)) = true
  /\ equals (q1 (mm FMin)) (q1 (mm FSum)) = false
  /\ built (q1 (ct true)) /\ In [FMin; FMax] same_signature.
Proof. cbv zeta. each_part; try (now eexists). cbn [same_signature In]. auto. Qed.
(** The order of the named windows does not matter; 1 and TRUE and 1.0 are the same number, but not of the same type. *)
Example C31_case_values :
  let w n := (n, @default_window node) in
  let q ws := NSelect [NLit (LInt 1) integer] None None None None false ws no_qattrs in
  equals (q [w "a"; w "b"]) (q [w "b"; w "a"]) = true
  /\ equals (NLit (LInt 1) boolean) (NLit (LBool true) boolean) = true
  /\ equals (NLit (LDec (mkDec false 100 (-2))) (TDecimal 3 2)) (NLit (LInt 1) (TDecimal 3 2)) = true
  /\ equals (NLit (LInt 1) integer) (NLit (LBool true) boolean) = false.
Proof. cbv zeta. each_part. Qed.
