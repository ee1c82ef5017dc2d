(** The text of an object does not depend on the data types stored in its columns and stars. *)
From Coq Require Import String List ZArith Bool Lia.
From Verif Require Import PyStr Printer Types Functions Ast Walk Sql Tokens Unvar NodeFacts.
Import ListNotations.
Open Scope nat_scope.
Open Scope string_scope.
Open Scope list_scope.

(** * A map over the direct parts of a node *)
Definition qattrs_fmap {A B} (f : A -> B) (x : qattrs A) : qattrs B :=
  let 'mkQ wi ob off lim := x in mkQ (map f wi) (map (order_fmap f) ob) off lim.
Definition group_fmap {A B} (f : A -> B) (g : group A) : group B :=
  match g with
  | GSet l => GSet (map f l)
  | GSets ll => GSets (map (map f) ll)
  | GCube l => GCube (map f l)
  | GRollup l => GRollup (map f l)
  end.
Definition groupby_fmap {A B} (f : A -> B) (g : groupby A) : groupby B :=
  let 'mkG gs d := g in mkG (map (group_fmap f) gs) d.
Definition jcrit_fmap {A B} (f : A -> B) (c : jcrit A) : jcrit B :=
  match c with JUsing cols => JUsing cols | JOn x => JOn (f x) end.
Definition tref_fmap {A B} (f : A -> B) (t : tref A) : tref B :=
  match t with TRNone => TRNone | TRStr s => TRStr s | TRVal v => TRVal (f v) end.
Definition branch_fmap {A B} (f : A -> B) (cv : A * A) : B * B := let '(c, x) := cv in (f c, f x).
Definition named_fmap {A B} (f : A -> B) (nw : string * window A) : string * window B :=
  let '(n, w) := nw in (n, window_fmap f w).

Definition node_fmap (f : node -> node) (e : node) : node :=
  match e with
  | NNone | NLit _ _ | NVar _ | NTypeCtor _ _ | NInterval _ _ _ | NDateTime _ _ | NTable _ _ _ => e
  | NField n tr t => NField n (tref_fmap f tr) t
  | NStar tr t => NStar (tref_fmap f tr) t
  | NAliased v a => NAliased (f v) a
  | NAliasedStar v a => NAliasedStar (f v) a
  | NLambda vs b => NLambda vs (f b)
  | NUn op v => NUn op (f v)
  | NBin op l r => NBin op (f l) (f r)
  | NBetween a b c => NBetween (f a) (f b) (f c)
  | NArray vs => NArray (map f vs)
  | NInQuery v q => NInQuery (f v) (f q)
  | NInList v vs => NInList (f v) (map f vs)
  | NLike a b c => NLike (f a) (f b) (option_map f c)
  | NRow vs => NRow (map f vs)
  | NCast tr v t => NCast tr (f v) t
  | NSubscript a b => NSubscript (f a) (f b)
  | NCase bs el v => NCase (map (branch_fmap f) bs) (option_map f el) (option_map f v)
  | NFunc g args fo => NFunc g (map f args) (fopts_fmap f fo)
  | NListAgg v sep ov ob => NListAgg (f v) sep ov (map (order_fmap f) ob)
  | NNormalize v nf => NNormalize (f v) nf
  | NSelect sel fr wh gb hv d ws qa =>
      NSelect (map f sel) (option_map f fr) (option_map f wh) (option_map (groupby_fmap f) gb)
              (option_map f hv) d (map (named_fmap f) ws) (qattrs_fmap f qa)
  | NSetQuery op l r d qa => NSetQuery op (f l) (f r) d (qattrs_fmap f qa)
  | NTableQuery t qa => NTableQuery (f t) (qattrs_fmap f qa)
  | NValues es qa => NValues (map f es) (qattrs_fmap f qa)
  | NAliasedRel r a cols => NAliasedRel (f r) a cols
  | NJoin l r jt nat c => NJoin (f l) (f r) jt nat (option_map (jcrit_fmap f) c)
  | NUnnest vs od => NUnnest (map f vs) od
  | NLateral q => NLateral (f q)
  | NSample r st p => NSample (f r) st (f p)
  end.

(** All data types of columns and stars forgotten. *)
Fixpoint erase (e : node) : node :=
  match e with
  | NField n tr _ => NField n (tref_fmap erase tr) unknown
  | NStar tr _ => NStar (tref_fmap erase tr) unknown
  | _ => node_fmap erase e
  end.

(** * Maps that change nothing for what is computed from the parts *)
Lemma map_map_same {A B} (s : A -> B) f l : (forall x, In x l -> s (f x) = s x) -> map s (map f l) = map s l.
Proof. intro H. rewrite map_map. now apply map_ext_in. Qed.
Lemma order_sql_f {A} (s : A -> string) f x : s (f (o_value x)) = s (o_value x) ->
  order_sql s (order_fmap f x) = order_sql s x.
Proof. destruct x. cbn. now intros ->. Qed.
Lemma orders_sql_f {A} (s : A -> string) f l : (forall x, In x (map o_value l) -> s (f x) = s x) ->
  map (order_sql s) (map (order_fmap f) l) = map (order_sql s) l.
Proof. intro H. apply map_map_same. intros x Hx. apply order_sql_f, H. now apply in_map. Qed.
Lemma bound_sql_f {A} (s : A -> string) f x : (forall a, In a (bound_kids x) -> s (f a) = s a) ->
  bound_sql s (bound_fmap f x) = bound_sql s x.
Proof. destruct x; intro H; cbn; [rewrite H by (now left)|..]; reflexivity. Qed.
Ltac part H := intros; apply H; repeat rewrite in_app_iff; cbn [In]; tauto.
Lemma window_entries_f {A} (s : A -> string) f o x : (forall a, In a (window_kids x) -> s (f a) = s a) ->
  window_entries s o (window_fmap f x) = window_entries s o x.
Proof.
  destruct x as [p ob ps fr st en]. cbn [window_kids window_fmap window_entries]. intro H.
  rewrite orders_sql_f, map_map_same, !bound_sql_f by part H. now destruct ob, ps.
Qed.
Lemma window_sql_f {A} (s : A -> string) f o x : (forall a, In a (window_kids x) -> s (f a) = s a) ->
  window_sql s o (window_fmap f x) = window_sql s o x.
Proof. intro H. unfold window_sql. now rewrite window_entries_f. Qed.
Lemma fopts_entries_f {A} (s : A -> string) f o x : (forall a, In a (fopts_kids x) -> s (f a) = s a) ->
  fopts_entries s o (fopts_fmap f x) = fopts_entries s o x.
Proof.
  destruct x as [ob fi wi ig]. cbn [fopts_kids fopts_fmap fopts_entries]. intro H.
  destruct fi as [a|]; cbn [option_map opt_kids] in *; [rewrite H by (repeat rewrite in_app_iff; cbn [In]; tauto)|];
    (destruct wi as [w|]; cbn [option_map]; [rewrite window_sql_f by part H|]); reflexivity.
Qed.
Lemma orderby_text_f {A} (s : A -> string) f o l : (forall x, In x (map o_value l) -> s (f x) = s x) ->
  orderby_text s o (map (order_fmap f) l) = orderby_text s o l.
Proof. intro H. unfold orderby_text. now rewrite orders_sql_f. Qed.
Lemma call_sql_f {A} (s : A -> string) f o n args x :
  (forall a, In a (args ++ fopts_kids x) -> s (f a) = s a) ->
  call_sql s o n (map f args) (fopts_fmap f x) = call_sql s o n args x.
Proof.
  intro H. unfold call_sql. rewrite fopts_entries_f, map_map_same by part H.
  destruct x as [ob fi wi ig]. cbn [fopts_fmap fo_orderby].
  cbn [fopts_kids] in H. pose proof (orderby_text_f s f o ob ltac:(part H)) as E.
  destruct ob; [reflexivity|]. cbn [map] in *. now rewrite E.
Qed.
Lemma list_sql_f {A} (s : A -> string) f o l : (forall x, In x l -> s (f x) = s x) ->
  list_sql s o (map f l) = list_sql s o l.
Proof. intro H. unfold list_sql. now rewrite map_map_same. Qed.
Lemma set_sql_f {A} (s : A -> string) f o l : (forall x, In x l -> s (f x) = s x) ->
  set_sql s o (map f l) = set_sql s o l.
Proof.
  intro H. destruct l as [|a [|b l]]; cbn [map set_sql]; [reflexivity|apply H; now left|].
  exact (list_sql_f s f o (a :: b :: l) H).
Qed.
Lemma group_sql_f {A} (s : A -> string) f o g : (forall x, In x (group_kids g) -> s (f x) = s x) ->
  group_sql s o (group_fmap f g) = group_sql s o g.
Proof.
  destruct g as [l|ll|l|l]; cbn [group_kids group_fmap group_sql]; intro H.
  - now apply set_sql_f.
  - unfold list_sql. rewrite map_map_same; [reflexivity|]. intros x Hx. apply set_sql_f.
    intros y Hy. apply H, in_concat. eauto.
  - now rewrite list_sql_f.
  - now rewrite list_sql_f.
Qed.
Lemma groupby_sql_f {A} (s : A -> string) f o g : (forall x, In x (groupby_kids g) -> s (f x) = s x) ->
  groupby_sql s o (groupby_fmap f g) = groupby_sql s o g.
Proof.
  destruct g as [gs d]. cbn [groupby_kids groupby_fmap groupby_sql]. intro H.
  rewrite map_map_same; [reflexivity|]. intros g Hg. apply group_sql_f.
  intros x Hx. apply H, in_concat. exists (group_kids g). split; [now apply in_map|exact Hx].
Qed.
Lemma constraint_entries_f {A} (s : A -> string) f o q : (forall x, In x (qattrs_kids q) -> s (f x) = s x) ->
  constraint_entries s o (qattrs_fmap f q) = constraint_entries s o q.
Proof.
  destruct q as [wi ob off lim]. cbn [qattrs_kids qattrs_fmap constraint_entries]. intro H.
  rewrite orders_sql_f by part H. now destruct ob.
Qed.
Lemma crit_entry_f {A} (s : A -> string) f o c : (forall x, In x (jcrit_kids c) -> s (f x) = s x) ->
  crit_entry s o (jcrit_fmap f c) = crit_entry s o c.
Proof. destruct c; intro H; cbn; [reflexivity|]. rewrite H by (now left). reflexivity. Qed.
Lemma tref_text_f {A} (s : A -> string) f t : (forall x, In x (tref_kids t) -> s (f x) = s x) ->
  tref_text s (tref_fmap f t) = tref_text s t.
Proof. destruct t as [|[|]|]; intro H; cbn; [reflexivity..|]. rewrite H by (now left). reflexivity. Qed.

(** * Erasing keeps the class *)
Lemma erase_query e : is_query (erase e) = is_query e.
Proof. now destruct e. Qed.
Lemma erase_join e : is_join (erase e) = is_join e.
Proof. now destruct e. Qed.
Lemma erase_negatable e : negatable (erase e) = negatable e.
Proof. now destruct e. Qed.
Lemma erase_prec e : prec (erase e) = prec e.
Proof. now destruct e. Qed.
Lemma erase_aliased e : is_aliased_rel (erase e) = is_aliased_rel e.
Proof. now destruct e. Qed.
Lemma pemdas_erase c l x o : (forall o, sql_n false (erase x) o = sql_n false x o) ->
  pemdas c l (erase x) (sql_n false (erase x)) o = pemdas c l x (sql_n false x) o.
Proof. intro H. unfold pemdas, needs_parens. now rewrite erase_prec, !H. Qed.
Lemma relation_string_erase n j x o : sql_n false (erase x) o = sql_n false x o ->
  relation_string n j (erase x) (sql_n false (erase x) o) o = relation_string n j x (sql_n false x o) o.
Proof. intro H. unfold relation_string. now rewrite erase_query, erase_join, H. Qed.

(** * The text *)
Definition text_of o := fun x => sql_n false x o.
Definition same_text (e : node) : Prop :=
  (forall neg o, sql_n neg (erase e) o = sql_n neg e o)
  /\ forall o, named_query_sql (text_of o) o (erase e) = named_query_sql (text_of o) o e.
Lemma with_entries_erase o q : (forall x, In x (qattrs_kids q) -> same_text x) ->
  with_entries (text_of o) o (qattrs_fmap erase q) = with_entries (text_of o) o q.
Proof.
  destruct q as [wi ob off lim]. cbn [qattrs_kids qattrs_fmap]. intro H. unfold with_entries. cbn [q_with].
  assert (E : map (named_query_sql (text_of o) o) (map erase wi) = map (named_query_sql (text_of o) o) wi).
  { apply map_map_same. intros x Hx. apply H. apply in_app_iff. now left. }
  destruct wi; [reflexivity|]. cbn [map] in *. now rewrite E.
Qed.
Lemma branches_erase o (bs : list (node * node)) :
  (forall x, In x (concat (map (fun cv => [fst cv; snd cv]) bs)) -> text_of o (erase x) = text_of o x) ->
  map (fun cv => let '(c, x) := cv in ("WHEN " ++ text_of o c ++ " THEN " ++ text_of o x)%string) (map (branch_fmap erase) bs)
  = map (fun cv => let '(c, x) := cv in ("WHEN " ++ text_of o c ++ " THEN " ++ text_of o x)%string) bs.
Proof.
  intro H. apply map_map_same. intros [c x] Hx. destruct (case_kids _ _ _ Hx). cbn [branch_fmap].
  now rewrite !H.
Qed.
Lemma windows_erase o (ws : list (string * window node)) :
  (forall x, In x (concat (map (fun nw => window_kids (snd nw)) ws)) -> text_of o (erase x) = text_of o x) ->
  map (fun nw => let '(n, w) := nw in (n ++ " AS " ++ parenthesize (window_sql (text_of o) o w))%string) (map (named_fmap erase) ws)
  = map (fun nw => let '(n, w) := nw in (n ++ " AS " ++ parenthesize (window_sql (text_of o) o w))%string) ws.
Proof.
  intro H. apply map_map_same. intros [n w] Hx. cbn [named_fmap]. rewrite window_sql_f; [reflexivity|].
  intros a Ha. apply H, in_concat. exists (window_kids w). split; [|exact Ha].
  apply in_map_iff. exists (n, w). split; [reflexivity|exact Hx].
Qed.

Ltac fold_text o :=
  repeat match goal with |- context [sql_n false ?x o] => change (sql_n false x o) with (text_of o x) end.
Lemma sql_erase_both e : same_text e.
Proof.
  induction e as [e IH] using kids_ind.
  assert (S : forall o x, In x (kids e) -> text_of o (erase x) = text_of o x)
    by (intros o x Hx; now apply IH).
  assert (P : forall c l x o, In x (kids e) ->
             pemdas c l (erase x) (sql_n false (erase x)) o = pemdas c l x (sql_n false x) o)
    by (intros c l x o Hx; apply pemdas_erase; intros; now apply IH).
  assert (R : forall o n j x, In x (kids e) ->
             relation_string n j (erase x) (text_of o (erase x)) o = relation_string n j x (text_of o x) o)
    by (intros o n j x Hx; apply relation_string_erase; now apply IH).
  split.
  2:{ intro o. destruct e; try reflexivity. cbn [erase node_fmap named_query_sql]. now rewrite R by (now left). }
  intros neg o.
  destruct e; cbn [erase node_fmap sql_n]; cbn [kids] in S, P, R, IH;
    repeat change (fun x : node => sql_n false x o) with (text_of o);
    fold_text o;
    try reflexivity.
  - now rewrite tref_text_f by (now apply S).
  - now rewrite S by (now left).
  - now rewrite tref_text_f by (now apply S).
  - now rewrite S by (now left).
  - now rewrite S by (now left).
  - destruct op; rewrite ?P by (now left); try reflexivity.
    rewrite erase_negatable. destruct (IH e (or_introl eq_refl)) as [E _]. now rewrite E.
  - destruct op; rewrite ?P by (cbn; auto); reflexivity.
  - rewrite !P by (cbn; auto). reflexivity.
  - now rewrite map_map_same by part S.
  - rewrite P, S by (cbn; auto). reflexivity.
  - rewrite P by (cbn; auto). rewrite map_map_same by part S. reflexivity.
  - rewrite !P by (cbn; auto). destruct esc; cbn [option_map opt_kids] in *; fold_text o; [rewrite S by (cbn; auto)|]; reflexivity.
  - now rewrite map_map_same by part S.
  - now rewrite S by (now left).
  - rewrite !S by (cbn; auto). reflexivity.
  - pose proof (branches_erase o branches ltac:(part S)) as B. unfold text_of in B. rewrite B. clear B.
    destruct value as [v|]; cbn [option_map opt_kids] in *; fold_text o; [rewrite S by (repeat rewrite in_app_iff; cbn; auto)|];
      (destruct else_ as [w|]; cbn [option_map opt_kids] in *; fold_text o; [rewrite S by (repeat rewrite in_app_iff; cbn; auto)|]);
      reflexivity.
  - now rewrite call_sql_f by (now apply S).
  - rewrite S by (now left). rewrite orderby_text_f; [reflexivity|]. intros; apply S. now right.
  - rewrite with_entries_erase by part IH.
    rewrite map_map_same, constraint_entries_f by part S.
    assert (E1 : forall (k : string) x, (forall y, In y (opt_kids x) -> text_of o (erase y) = text_of o y) ->
               opt_entry k (text_of o) (option_map erase x) = opt_entry k (text_of o) x).
    { intros k [x|] H; cbn; [|reflexivity]. now rewrite H by (now left). }
    rewrite !E1 by part S.
    assert (opt_entry "FROM" (fun r => if is_query r then pad (parenthesize (sql_n false r o)) 1 else sql_n false r o) (option_map erase from_)
            = opt_entry "FROM" (fun r => if is_query r then pad (parenthesize (sql_n false r o)) 1 else sql_n false r o) from_) as ->.
    { destruct from_ as [r|]; cbn [option_map opt_entry]; [|reflexivity]. fold_text o. rewrite erase_query, S; [reflexivity|].
      repeat rewrite in_app_iff. cbn; auto. }
    assert (opt_entry "GROUP" (fun g => ("BY " ++ groupby_sql (text_of o) o g)%string) (option_map (groupby_fmap erase) gb)
            = opt_entry "GROUP" (fun g => ("BY " ++ groupby_sql (text_of o) o g)%string) gb) as ->.
    { destruct gb as [g|]; cbn [option_map opt_entry]; [|reflexivity]. rewrite groupby_sql_f by part S. reflexivity. }
    pose proof (windows_erase o windows ltac:(part S)) as W.
    destruct windows; [reflexivity|]. cbn [map] in *. now rewrite W.
  - rewrite !R by (cbn; auto). reflexivity.
  - rewrite with_entries_erase by part IH. rewrite constraint_entries_f by part S.
    now rewrite S by (now left).
  - rewrite with_entries_erase by part IH. rewrite constraint_entries_f, map_map_same by part S. reflexivity.
  - now rewrite R by (now left).
  - rewrite !R by (cbn; auto). destruct crit as [c|]; cbn [option_map]; [|reflexivity].
    rewrite crit_entry_f by part S. reflexivity.
  - now rewrite map_map_same by part S.
  - now rewrite S by (now left).
  - rewrite R, S by (cbn; auto). reflexivity.
Qed.
Lemma sql_erase e o : sql (erase e) o = sql e o.
Proof. apply sql_erase_both. Qed.

(** * What cannot be printed *)
Lemma all_ok_f {A B} (p : B -> result unit) (q : A -> result unit) f l :
  (forall x, In x l -> p (f x) = q x) -> all_ok p (map f l) = all_ok q l.
Proof. apply all_ok_map. Qed.
Lemma window_keys_f {A B} (f : A -> B) w : window_keys_ok (window_fmap f w) = window_keys_ok w.
Proof.
  destruct w as [p ob ps fr st en]. unfold window_keys_ok.
  assert (E : forall A B (h : A -> B) x, bound_sql (fun _ => "") (bound_fmap h x) = bound_sql (fun _ => "") x)
    by (intros ? ? ? []; reflexivity).
  cbn [window_fmap window_entries]. rewrite !E, !map_map.
  assert (O : map (fun x : order A => order_sql (fun _ => "") (order_fmap f x)) ob = map (order_sql (fun _ => "")) ob)
    by (apply map_ext; intros []; reflexivity).
  rewrite O. destruct ob, ps; reflexivity.
Qed.
Lemma window_pr_f {A} (p : A -> result unit) f w : (forall a, In a (window_kids w) -> p (f a) = p a) ->
  window_pr p (window_fmap f w) = window_pr p w.
Proof.
  intro H. unfold window_pr. rewrite window_keys_f.
  rewrite (window_ok_map p p f p p); [reflexivity|]. intros a Ha. now split; apply H.
Qed.
Lemma fopts_pr_f {A} (p : A -> result unit) f x : (forall a, In a (fopts_kids x) -> p (f a) = p a) ->
  fopts_pr p (fopts_fmap f x) = fopts_pr p x.
Proof.
  destruct x as [ob fi wi ig]. cbn [fopts_kids fopts_fmap fopts_pr]. intro H.
  rewrite (orders_ok_map p f p) by part H.
  rewrite (opt_ok_map p f p) by part H.
  destruct wi as [w|]; cbn [option_map opt_ok]; [rewrite window_pr_f by part H|]; reflexivity.
Qed.
Lemma group_pr_f {A} (p : A -> result unit) f g : (forall a, In a (group_kids g) -> p (f a) = p a) ->
  group_pr p (group_fmap f g) = group_pr p g.
Proof.
  destruct g as [l|ll|l|l]; cbn [group_kids group_fmap group_pr]; intro H; try (now apply all_ok_f).
  apply all_ok_f. intros l Hl. apply all_ok_f. intros x Hx. apply H, in_concat. eauto.
Qed.
Lemma groupby_pr_f {A} (p : A -> result unit) f g : (forall a, In a (groupby_kids g) -> p (f a) = p a) ->
  groupby_pr p (groupby_fmap f g) = groupby_pr p g.
Proof.
  destruct g as [gs d]. cbn [groupby_kids groupby_fmap groupby_pr]. intro H. apply all_ok_f.
  intros g Hg. apply group_pr_f. intros x Hx. apply H, in_concat. exists (group_kids g). split; [now apply in_map|exact Hx].
Qed.
Definition with_pr (q : qattrs node) : result unit :=
  let 'mkQ wi ob _ _ := q in
  let* _ := all_ok (fun x => if is_aliased_rel x then printable x else Err AttributeError) wi in
  all_ok (order_ok printable) ob.
Lemma with_pr_erase q : (forall x, In x (qattrs_kids q) -> printable (erase x) = printable x) ->
  with_pr (qattrs_fmap erase q) = with_pr q.
Proof.
  destruct q as [wi ob off lim]. cbn [qattrs_kids qattrs_fmap with_pr]. intro H.
  rewrite (orders_ok_map printable erase printable) by part H.
  rewrite (all_ok_f _ (fun x => if is_aliased_rel x then printable x else Err AttributeError)); [reflexivity|].
  intros x Hx. rewrite erase_aliased, H; [reflexivity|]. apply in_app_iff. now left.
Qed.
Lemma printable_erase e : printable (erase e) = printable e.
Proof.
  induction e as [e IH] using kids_ind.
  destruct e; cbn [erase node_fmap printable]; cbn [kids] in IH;
    repeat change (let 'mkQ wi ob _ _ := ?q in
      let* _ := all_ok (fun x => if is_aliased_rel x then printable x else Err AttributeError) wi in
      all_ok (order_ok printable) ob) with (with_pr q);
    try reflexivity; rewrite ?IH by (cbn; auto); try reflexivity.
  - destruct table as [|tb|tb]; cbn [tref_fmap tref_ok]; [reflexivity..|]. apply IH. now left.
  - destruct table as [|tb|tb]; cbn [tref_fmap tref_ok]; [reflexivity..|]. apply IH. now left.
  - now apply all_ok_f.
  - rewrite (all_ok_f _ printable) by part IH. reflexivity.
  - rewrite (opt_ok_map _ _ printable) by part IH. reflexivity.
  - now apply all_ok_f.
  - rewrite (all_ok_f _ (fun cv : node * node => let '(c, x) := cv in let* _ := printable c in printable x)).
    2:{ intros [c x] Hx. destruct (case_kids _ _ _ Hx). cbn [branch_fmap]. rewrite !IH; [reflexivity|..]; rewrite !in_app_iff; auto. }
    rewrite !(opt_ok_map _ _ printable) by part IH. reflexivity.
  - rewrite (all_ok_f _ printable), fopts_pr_f by part IH. reflexivity.
  - rewrite (orders_ok_map _ _ printable) by part IH. reflexivity.
  - rewrite with_pr_erase, (all_ok_f _ printable), !(opt_ok_map _ _ printable) by part IH.
    rewrite (opt_ok_map _ _ (groupby_pr printable)).
    2:{ destruct gb; [|intros ? []]. intros x [<-|[]]. apply groupby_pr_f. part IH. }
    rewrite (all_ok_f _ (fun nw : string * window node => let '(_, w) := nw in window_pr printable w)); [reflexivity|].
    intros [n w] Hx. cbn [named_fmap]. apply window_pr_f. intros a Ha. apply IH. rewrite !in_app_iff.
    do 5 right. left. apply in_concat. exists (window_kids w). split; [|exact Ha].
    apply in_map_iff. exists (n, w). split; [reflexivity|exact Hx].
  - rewrite with_pr_erase by part IH. reflexivity.
  - rewrite with_pr_erase, (all_ok_f _ printable) by part IH. reflexivity.
  - destruct crit as [[]|]; cbn [option_map opt_ok jcrit_fmap jcrit_ok]; [reflexivity| |reflexivity].
    now rewrite IH by (cbn; auto).
  - now apply all_ok_f.
Qed.
Lemma to_sql_erase o e : to_sql o (erase e) = to_sql o e.
Proof. unfold to_sql. now rewrite printable_erase, sql_erase. Qed.

(** * The map as a rebuilding *)
Lemma each_pure {A B} (f : A -> result B) g l : (forall x, f x = Ok (g x)) -> each f l = Ok (map g l).
Proof. intro H. induction l as [|a l IH]; cbn [each map]; [reflexivity|]. now rewrite H, IH. Qed.
Lemma orders_pure {A B} (g : A -> B) l : each (order_map (fun x => Ok (g x))) l = Ok (map (order_fmap g) l).
Proof. apply each_pure. now intros []. Qed.
Lemma opt_pure {A B} (f : A -> result B) g x : (forall x, f x = Ok (g x)) -> opt_map f x = Ok (option_map g x).
Proof. intro H. destruct x; cbn; [now rewrite H|reflexivity]. Qed.
Lemma bound_pure {A B} (g : A -> B) x : bound_map (fun x => Ok (g x)) x = Ok (bound_fmap g x).
Proof. now destruct x. Qed.
Lemma window_pure {A B} (g : A -> B) x : window_map (fun x => Ok (g x)) x = Ok (window_fmap g x).
Proof.
  destruct x. cbn [window_map window_fmap].
  rewrite orders_pure, (each_pure _ g) by reflexivity. cbn [bind]. now rewrite !bound_pure.
Qed.
Lemma fopts_pure {A B} (g : A -> B) x : fopts_map (fun x => Ok (g x)) x = Ok (fopts_fmap g x).
Proof.
  destruct x. cbn [fopts_map fopts_fmap].
  rewrite orders_pure, (opt_pure _ g) by reflexivity. cbn [bind].
  now rewrite (opt_pure _ (window_fmap g)) by (intro; apply window_pure).
Qed.
Lemma qattrs_pure {A B} (g : A -> B) x : qattrs_map (fun x => Ok (g x)) x = Ok (qattrs_fmap g x).
Proof.
  destruct x. cbn [qattrs_map qattrs_fmap]. rewrite orders_pure. cbn [bind].
  now rewrite (each_pure _ g).
Qed.
Lemma group_pure {A B} (g : A -> B) x : group_map (fun x => Ok (g x)) x = Ok (group_fmap g x).
Proof.
  destruct x; cbn [group_map group_fmap]; try (now rewrite (each_pure _ g)).
  rewrite (each_pure _ (map g)); [reflexivity|]. intro. now apply each_pure.
Qed.
Lemma groupby_pure {A B} (g : A -> B) x : groupby_map (fun x => Ok (g x)) x = Ok (groupby_fmap g x).
Proof.
  destruct x; cbn [groupby_map groupby_fmap]. now rewrite (each_pure _ (group_fmap g)) by apply group_pure.
Qed.
Lemma node_pure g e : node_each (fun x => Ok (g x)) e = Ok (node_fmap g e).
Proof.
  destruct e; cbn [node_each node_fmap bind]; try reflexivity;
    rewrite ?(each_pure _ g), ?(opt_pure _ g) by reflexivity; cbn [bind]; try reflexivity.
  - now destruct table.
  - now destruct table.
  - rewrite (each_pure _ (branch_fmap g)) by (now intros []). cbn [bind].
    rewrite ?(opt_pure _ g) by reflexivity. reflexivity.
  - rewrite fopts_pure. cbn [bind]. rewrite ?(each_pure _ g) by reflexivity. reflexivity.
  - now rewrite orders_pure.
  - rewrite qattrs_pure. cbn [bind]. rewrite ?(each_pure _ g) by reflexivity. cbn [bind].
    rewrite ?(opt_pure _ g) by reflexivity. cbn [bind].
    rewrite (opt_pure _ (groupby_fmap g)) by apply groupby_pure. cbn [bind].
    rewrite (each_pure _ (named_fmap g)); [reflexivity|]. intros [n w]. cbn [named_map named_fmap]. now rewrite window_pure.
  - now rewrite qattrs_pure.
  - now rewrite qattrs_pure.
  - rewrite qattrs_pure. cbn [bind]. rewrite ?(each_pure _ g) by reflexivity. reflexivity.
  - rewrite (opt_pure _ (jcrit_fmap g)); [reflexivity|]. now intros [].
Qed.
Lemma node_fmap_kids g e : kids (node_fmap g e) = map g (kids e).
Proof.
  pose proof (t_parts trav_node _ _ _ (node_pure g e)) as F. induction F as [|a b l m H F IH]; [reflexivity|].
  injection H as <-. cbn [map]. now rewrite IH.
Qed.
(** Equal up to the types when the outer forms are equal and the parts are equal up to the types. *)
Lemma node_fmap_same g e e' :
  node_each blank e' = node_each blank e -> map g (kids e') = map g (kids e) -> node_fmap g e' = node_fmap g e.
Proof.
  intros S K. assert (exists s, node_each blank e = Ok s) as [s E].
  { apply (t_total trav_node). intros a _. now exists NNone. }
  rewrite E in S.
  apply (t_same trav_node) with (s := s).
  - exact (t_shell trav_node _ _ _ _ (node_pure g e') S).
  - exact (t_shell trav_node _ _ _ _ (node_pure g e) E).
  - now rewrite !node_fmap_kids.
Qed.
