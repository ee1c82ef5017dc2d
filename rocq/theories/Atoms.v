(** How often a name, an integer or a text occurs in an object, and in the tokens of a
    text.  Specification side of C70, with the proof over the rules of Accepts.v that
    nothing occurs in an object more often than in the text it was read from. *)
From Coq Require Import String List ZArith NArith Bool Arith Lia.
From Verif Require Import PyStr Types Inference Lexer TypeParser Functions Ast Walk Tokens NodeFacts Sql Parser Grammar Accepts
  PropertiesLambda.
Import ListNotations.
Open Scope nat_scope.
Open Scope string_scope.
Open Scope list_scope.

(** A name (of a column, a table, a schema, a catalog, a window, an alias, a lambda's
    input), the digits of an integer, or the value of a text. *)
Inductive atom := AName (n : string) | AInt (n : N) | AText (v : string).
Definition same (a b : atom) : nat :=
  match a, b with
  | AName x, AName y | AText x, AText y => if String.eqb x y then 1 else 0
  | AInt x, AInt y => if N.eqb x y then 1 else 0
  | _, _ => 0
  end.
(** In a token.  A keyword may be a name (SqlBase.g4 814-820); a unicode string counts
    for any text (C64 says for which). *)
Definition in_token (a : atom) (t : token) : nat :=
  match t with
  | TId n | TKw _ n => same a (AName n)
  | TQuoted s => same a (AName (strip dquote s))
  | TInt s => same a (AInt (digits 0 s))
  | TString s => same a (AText (strip squote s))
  | TUniString _ => match a with AText _ => 1 | _ => 0 end
  | _ => 0
  end.
Definition in_tokens (a : atom) (ts : list token) : nat := list_sum (map (in_token a) ts).

(** In the attributes of one object, not counting the objects below it. *)
Definition in_names (a : atom) (l : list string) : nat := list_sum (map (fun n => same a (AName n)) l).
Definition in_name (a : atom) (o : option string) : nat := match o with Some n => same a (AName n) | None => 0 end.
Definition in_int (a : atom) (o : option Z) : nat := match o with Some z => same a (AInt (Z.abs_N z)) | None => 0 end.
Definition in_lit (a : atom) (l : lit) : nat :=
  match l with LInt z => same a (AInt (Z.abs_N z)) | LStr v => same a (AText v) | _ => 0 end.
Definition own_tref {A} (a : atom) (t : tref A) : nat := match t with TRStr n => same a (AName n) | _ => 0 end.
Definition own_window {A} (a : atom) (w : window A) : nat := in_name a (w_parent w).
Definition own_fopts {A} (a : atom) (x : fopts A) : nat := match fo_window x with Some w => own_window a w | None => 0 end.
Definition own_qattrs {A} (a : atom) (q : qattrs A) : nat := in_int a (q_offset q) + in_int a (q_limit q).
Definition own_crit {A} (a : atom) (c : option (jcrit A)) : nat := match c with Some (JUsing l) => in_names a l | _ => 0 end.
Definition own (a : atom) (e : node) : nat :=
  match e with
  | NLit l _ => in_lit a l
  | NField n t _ => same a (AName n) + own_tref a t
  | NAliased _ n => same a (AName n)
  | NStar t _ => own_tref a t
  | NAliasedStar _ l => in_names a l
  | NVar n => same a (AName n)
  | NLambda l _ => in_names a l
  | NTypeCtor v _ => same a (AText v)
  | NFunc _ _ fo => own_fopts a fo
  | NSelect _ _ _ _ _ _ ws qa => list_sum (map (fun nw => same a (AName (fst nw)) + own_window a (snd nw)) ws) + own_qattrs a qa
  | NSetQuery _ _ _ _ qa | NTableQuery _ qa | NValues _ qa => own_qattrs a qa
  | NTable n s c => same a (AName n) + in_name a s + in_name a c
  | NAliasedRel _ n l => same a (AName n) + in_names a l
  | NJoin _ _ _ _ c => own_crit a c
  | _ => 0
  end.
(** In an object, with everything below it. *)
Fixpoint occ (a : atom) (e : node) {struct e} : nat :=
  let s := occ a in
  let all := fun l => list_sum (map s l) in
  let opt := fun o => match o with Some x => s x | None => 0 end in
  let ord := fun l => list_sum (map (fun o => let 'mkOrder v _ _ := o in s v) l) in
  let bnd := fun b => match b with BBounded _ v => s v | _ => 0 end in
  let win := fun w => let 'mkWindow _ ob ps _ st en := w in ord ob + all ps + bnd st + bnd en in
  let grp := fun g => match g with GSet l | GCube l | GRollup l => all l | GSets ll => list_sum (map all ll) end in
  let qat := fun q => let 'mkQ wi ob _ _ := q in all wi + ord ob in
  own a e +
  match e with
  | NNone | NLit _ _ | NVar _ | NTypeCtor _ _ | NInterval _ _ _ | NDateTime _ _ | NTable _ _ _ => 0
  | NField _ tr _ | NStar tr _ => match tr with TRVal v => s v | _ => 0 end
  | NAliased v _ | NAliasedStar v _ | NLambda _ v | NUn _ v | NCast _ v _ | NNormalize v _
  | NAliasedRel v _ _ | NLateral v => s v
  | NBin _ x y | NInQuery x y | NSubscript x y | NSample x _ y => s x + s y
  | NBetween x y z => s x + s y + s z
  | NArray vs | NRow vs | NUnnest vs _ => all vs
  | NInList v vs => s v + all vs
  | NLike x y z => s x + s y + opt z
  | NCase bs el v => list_sum (map (fun cv => let '(x, y) := cv in s x + s y) bs) + opt el + opt v
  | NFunc _ args fo =>
      all args + let 'mkFopts ob fi wi _ := fo in ord ob + opt fi + match wi with Some w => win w | None => 0 end
  | NListAgg v _ _ ob => s v + ord ob
  | NSelect sel fr wh gb hv _ ws qa =>
      all sel + opt fr + opt wh + match gb with Some g => let 'mkG gs _ := g in list_sum (map grp gs) | None => 0 end
      + opt hv + list_sum (map (fun nw => let '(_, w) := nw in win w) ws) + qat qa
  | NSetQuery _ l r _ qa => s l + s r + qat qa
  | NTableQuery t qa => s t + qat qa
  | NValues es qa => all es + qat qa
  | NJoin l r _ _ c => s l + s r + match c with Some (JOn x) => s x | _ => 0 end
  end.

(** * Sums *)
Definition occs (a : atom) (l : list node) : nat := list_sum (map (occ a) l).
Lemma occs_cons a x l : occs a (x :: l) = occ a x + occs a l. Proof. reflexivity. Qed.
Lemma occs_app a l m : occs a (l ++ m) = occs a l + occs a m.
Proof. unfold occs. now rewrite map_app, list_sum_app. Qed.
Lemma occs_orders a l : list_sum (map (fun o => let 'mkOrder v _ _ := o in occ a v) l) = occs a (map o_value l).
Proof. unfold occs. rewrite map_map. f_equal. apply map_ext. now intros []. Qed.
Lemma occs_concat a ll : occs a (concat ll) = list_sum (map (occs a) ll).
Proof. induction ll as [|l ll IH]; [reflexivity|]. cbn [concat]. rewrite occs_app, IH. reflexivity. Qed.
Definition occ_opt (a : atom) (o : option node) : nat := match o with Some x => occ a x | None => 0 end.
Lemma occs_opt a o : occs a (opt_kids o) = occ_opt a o.
Proof. destruct o; [|reflexivity]. unfold occs. cbn. lia. Qed.
Definition below_window (a : atom) (w : window node) : nat := occs a (window_kids w).
Lemma occs_window a w :
  (let 'mkWindow _ ob ps _ st en := w in
   list_sum (map (fun o => let 'mkOrder v _ _ := o in occ a v) ob) + list_sum (map (occ a) ps)
   + match st with BBounded _ v => occ a v | _ => 0 end + match en with BBounded _ v => occ a v | _ => 0 end) = below_window a w.
Proof.
  destruct w as [p ob ps f st en]. unfold below_window. cbn [window_kids]. rewrite !occs_app, occs_orders.
  change (list_sum (map (occ a) ps)) with (occs a ps). destruct st, en; cbn [bound_kids]; rewrite ?occs_cons; change (occs a []) with 0; lia.
Qed.
Lemma occs_group a g :
  match g with GSet l | GCube l | GRollup l => list_sum (map (occ a) l) | GSets ll => list_sum (map (fun l => list_sum (map (occ a) l)) ll) end
  = occs a (group_kids g).
Proof. destruct g; try reflexivity. cbn [group_kids]. now rewrite occs_concat. Qed.
Lemma occs_qattrs a q :
  (let 'mkQ wi ob _ _ := q in list_sum (map (occ a) wi) + list_sum (map (fun o => let 'mkOrder v _ _ := o in occ a v) ob))
  = occs a (qattrs_kids q).
Proof. destruct q as [wi ob off lim]. cbn [qattrs_kids]. now rewrite occs_app, occs_orders. Qed.
Lemma occs_fopts a x :
  (let 'mkFopts ob fi wi _ := x in
   list_sum (map (fun o => let 'mkOrder v _ _ := o in occ a v) ob) + occ_opt a fi + match wi with Some w => below_window a w | None => 0 end)
  = occs a (fopts_kids x).
Proof.
  destruct x as [ob fi wi ig]. cbn [fopts_kids]. rewrite !occs_app, occs_orders, occs_opt. destruct wi; unfold below_window; change (occs a []) with 0; lia.
Qed.
(** One level at a time. *)
Lemma occ_step a e : occ a e = own a e + occs a (kids e).
Proof.
  destruct e; cbn [occ kids]; try reflexivity; f_equal.
  all: fold (occs a) (occ_opt a).
  all: rewrite ?occs_cons, ?occs_app, ?occs_opt; change (occs a []) with 0; try lia.
  all: rewrite ?occs_orders, ?occs_qattrs; try lia; try reflexivity.
  - destruct table; try reflexivity. cbn [tref_kids]. rewrite occs_cons. change (occs a []) with 0. lia.
  - destruct table; try reflexivity. cbn [tref_kids]. rewrite occs_cons. change (occs a []) with 0. lia.
  - unfold occ_opt. lia.
  - fold (occ_opt a else_) (occ_opt a value). rewrite occs_concat, map_map, <- Nat.add_assoc. f_equal. f_equal.
    apply map_ext. intros [x y]. cbn [fst snd]. rewrite !occs_cons. change (occs a []) with 0. lia.
  - fold (occs a args). f_equal. rewrite <- occs_fopts. destruct fo as [ob fi wi ig]. unfold occ_opt.
    destruct wi as [w|]; [rewrite occs_window|]; reflexivity.
  - fold (occs a select) (occ_opt a from_) (occ_opt a wh) (occ_opt a having).
    match goal with |- _ + _ + _ + ?G + _ + ?W + _ = _ =>
      assert (EG : G = occs a (match gb with None => [] | Some g => groupby_kids g end));
      [|assert (EW : W = occs a (concat (map (fun nw => window_kids (snd nw)) windows)))] end.
    { destruct gb as [[gs d]|]; [|reflexivity]. cbn [groupby_kids]. rewrite occs_concat, map_map. f_equal. apply map_ext. intro g. apply occs_group. }
    { rewrite occs_concat, map_map. f_equal. apply map_ext. intros [n w]. apply occs_window. }
    rewrite EG, EW. lia.
  - destruct crit as [[l|x]|]; cbn [jcrit_kids]; rewrite ?occs_cons; change (occs a []) with 0; lia.
Qed.

(** * Lambdas
    Replacing columns by references to the inputs keeps all names. *)
Lemma named_own a ws ws' : each (named_map blank) ws = Ok ws' ->
  list_sum (map (fun nw => same a (AName (fst nw)) + own_window a (snd nw)) ws')
  = list_sum (map (fun nw : string * window node => same a (AName (fst nw)) + own_window a (snd nw)) ws).
Proof.
  revert ws'. induction ws as [|[n w] ws IH]; intros ws' H; cbn [each] in H; unbind; [reflexivity|].
  cbn [map]. match goal with |- list_sum (?x :: ?y) = list_sum (?u :: ?v) =>
    change (x + list_sum y = u + list_sum v) end. rewrite (IH _ E0). f_equal.
  cbn [named_map] in E. unbind. cbn [fst snd]. f_equal. destruct w. cbn [window_map] in *. unbind. reflexivity.
Qed.
Lemma own_shell a e s : shell e = Ok s -> own a e = own a s.
Proof.
  unfold shell. intro H. destruct e; cbn [node_each] in H; unbind; cbn [own]; try reflexivity.
  - destruct table; cbn [tref_map] in *; unbind; reflexivity.
  - destruct table; cbn [tref_map] in *; unbind; reflexivity.
  - destruct fo as [ob fi wi ig]. cbn [fopts_map] in *. unbind. unfold own_fopts. cbn [fo_window].
    destruct wi as [w|]; cbn [opt_map] in *; unbind; [|reflexivity]. destruct w. cbn [window_map] in *. unbind. reflexivity.
  - rewrite (named_own a windows _ ltac:(eassumption)). destruct qa; cbn [qattrs_map] in *; unbind; reflexivity.
  - destruct qa; cbn [qattrs_map] in *; unbind; reflexivity.
  - destruct qa; cbn [qattrs_map] in *; unbind; reflexivity.
  - destruct qa; cbn [qattrs_map] in *; unbind; reflexivity.
  - destruct crit as [[l|x]|]; cbn [opt_map jcrit_map] in *; unbind; cbn [jcrit_map] in *; unbind; reflexivity.
Qed.
Lemma occ_subst a vs e : forall e', subst vs e = Ok e' -> occ a e' = occ a e.
Proof.
  induction e as [e IH] using kids_ind. intros e' E.
  assert (D : is_param vs e \/ ~ is_param vs e).
  { destruct e; try (right; intros (n & t' & X & _); discriminate X).
    destruct table; try (right; intros (n & t' & X & _); discriminate X).
    destruct (in_dec string_dec name vs) as [I|I]; [left; now exists name, t|right].
    intros (n & t' & X & Hn). injection X as -> ->. now apply I. }
  destruct D as [(n & t & -> & Hn)|N].
  - cbn [subst] in E. destruct (mem n vs); cbv iota in E; injection E as <-; cbn [occ own own_tref]; lia.
  - apply subst_step in E; [|exact N]. rewrite !occ_step. f_equal.
    + destruct (shell_ok e) as [s Es]. pose proof (t_shell trav_node _ _ _ _ E Es) as Es'.
      now rewrite (own_shell a e s Es), (own_shell a e' s Es').
    + apply (t_parts trav_node) in E. revert E IH. generalize (kids e').
      induction (kids e) as [|k ks IHk]; intros l F IH; inversion F; subst; [reflexivity|]. rewrite !occs_cons. f_equal.
      * apply IH; [now left|assumption].
      * apply IHk; [assumption|intros; apply IH; [now right|assumption]].
Qed.

(** * Parts of phrases *)
Lemma in_tokens_nil a : in_tokens a [] = 0. Proof. reflexivity. Qed.
Lemma in_tokens_cons a t ts : in_tokens a (t :: ts) = in_token a t + in_tokens a ts. Proof. reflexivity. Qed.
Lemma in_tokens_app a x y : in_tokens a (x ++ y) = in_tokens a x + in_tokens a y.
Proof. unfold in_tokens. now rewrite map_app, list_sum_app. Qed.
Lemma in_tokens_paren a ts : in_tokens a (paren ts) = in_tokens a ts.
Proof. unfold paren. rewrite in_tokens_cons, in_tokens_app. cbn. lia. Qed.
Lemma sign_zero a s : in_token a (TSym s) = 0. Proof. reflexivity. Qed.
Lemma in_name_token a n ts : name n ts -> same a (AName n) <= in_tokens a ts.
Proof. intros []; rewrite in_tokens_cons, in_tokens_nil; cbn [in_token]; lia. Qed.
Lemma in_text_token a v ts : text v ts -> same a (AText v) <= in_tokens a ts.
Proof.
  intros []; rewrite !in_tokens_cons, in_tokens_nil; cbn [in_token]; [lia| |];
    destruct a; cbn [same]; try lia; match goal with |- context [String.eqb ?x ?y] => destruct (String.eqb x y) end; lia.
Qed.
Lemma in_names_cons a n l : in_names a (n :: l) = same a (AName n) + in_names a l. Proof. reflexivity. Qed.
Lemma in_names_app a l m : in_names a (l ++ m) = in_names a l + in_names a m.
Proof. unfold in_names. now rewrite map_app, list_sum_app. Qed.
Lemma in_name_list a l ts : name_list l ts -> in_names a l <= in_tokens a ts.
Proof.
  induction 1; rewrite ?in_names_cons, ?in_tokens_app, ?in_tokens_cons; change (in_names a []) with 0;
    match goal with H : name _ _ |- _ => apply (in_name_token a) in H end; lia.
Qed.
Lemma in_path a l ts : path l ts -> in_names a l <= in_tokens a ts.
Proof.
  induction 1; rewrite ?in_names_cons, ?in_tokens_app, ?in_tokens_cons; change (in_names a []) with 0;
    match goal with H : name _ _ |- _ => apply (in_name_token a) in H end; lia.
Qed.
Lemma in_cols a l ts : cols l ts -> in_names a l <= in_tokens a ts.
Proof. intros []; [reflexivity|]. rewrite in_tokens_paren. now apply in_name_list. Qed.
Lemma in_as_name a n ts : as_name n ts -> same a (AName n) <= in_tokens a ts.
Proof. intros []; rewrite ?in_tokens_cons; match goal with H : name _ _ |- _ => apply (in_name_token a) in H end; lia. Qed.
Lemma in_table a l t : table_of l t -> occ a t <= in_names a l.
Proof.
  intros []; rewrite ?in_names_app, ?in_names_cons; change (in_names a []) with 0; cbn [occ own in_name]; lia.
Qed.
Lemma in_offset a o ts : offset_of o ts -> in_int a o <= in_tokens a ts.
Proof.
  intros [|x s r _]; [reflexivity|]. rewrite !in_tokens_cons. cbn [in_int in_token]. unfold number.
  replace (Z.abs_N (Z.of_N (digits 0 s))) with (digits 0 s) by lia. lia.
Qed.
Lemma in_limit a o ts : limit_of o ts -> in_int a (given None o) <= in_tokens a ts.
Proof.
  intros [|x s|x|x k y c r e _ _ _ _]; try (cbn [given in_int]; lia). rewrite !in_tokens_cons. cbn [given in_int in_token]. unfold number.
  replace (Z.abs_N (Z.of_N (digits 0 s))) with (digits 0 s) by lia. lia.
Qed.
Lemma in_interval a e ts : interval e ts -> occ a e = 0.
Proof. now intros [m tm v tv u f g tg S T U G _]. Qed.
Lemma occ_negated a neg e : occ a (negated neg e) = occ a e.
Proof. destruct neg; reflexivity. Qed.
Lemma occ_dressed a q qa qa' : attrs_of q = Some qa ->
  occ a (dressed qa' q) + own_qattrs a qa + occs a (qattrs_kids qa) = occ a q + own_qattrs a qa' + occs a (qattrs_kids qa').
Proof.
  intro E. destruct q; try discriminate E; injection E as <-; cbn [dressed]; rewrite !occ_step; cbn [own kids];
    rewrite ?occs_app, ?occs_cons, ?occs_app; lia.
Qed.
Lemma occ_arranged a f l : occs a (arranged f l) = occs a l.
Proof.
  destruct f; try reflexivity. destruct l as [|x [|y [|z [|w l]]]]; try reflexivity.
  cbn [arranged]. rewrite !occs_cons. lia.
Qed.
Lemma occ_now a f p : occ a (now f p) = 0.
Proof. destruct f; reflexivity. Qed.
Lemma occ_starred a b : own_tref a (starred b) + occs a (tref_kids (starred b)) <= occ a b.
Proof.
  destruct b; cbn [starred own_tref tref_kids]; rewrite ?occs_cons; change (occs a []) with 0; try lia.
  rewrite occ_step. cbn [own]. lia.
Qed.
Lemma occ_kept a e : occ_opt a (kept e) = occ a e.
Proof. destruct e; reflexivity. Qed.
(** Named windows, where a later one replaces an earlier one. *)
Definition in_windef (a : atom) (x : string * window node) : nat :=
  same a (AName (fst x)) + own_window a (snd x) + below_window a (snd x).
Definition in_windows (a : atom) (l : list (string * window node)) : nat := list_sum (map (in_windef a) l).
Lemma in_windows_cons a x l : in_windows a (x :: l) = in_windef a x + in_windows a l. Proof. reflexivity. Qed.
Lemma in_windows_set a k w l : in_windows a (dict_set k w l) <= in_windef a (k, w) + in_windows a l.
Proof.
  induction l as [|[k' w'] l IH]; cbn [dict_set]; [reflexivity|]. destruct (String.eqb_spec k' k) as [->|N];
    rewrite !in_windows_cons; [|lia]. unfold in_windef. cbn [fst snd]. lia.
Qed.
Lemma in_windows_dict a l : in_windows a (dict_of l) <= in_windows a l.
Proof.
  unfold dict_of. assert (G : forall m, in_windows a (fold_left (fun m kv => dict_set (fst kv) (snd kv) m) l m) <= in_windows a l + in_windows a m).
  { induction l as [|[k w] l IH]; intro m; cbn [fold_left]; [lia|]. etransitivity; [apply IH|]. cbn [fst snd].
    rewrite in_windows_cons. pose proof (in_windows_set a k w m). lia. }
  specialize (G []). change (in_windows a []) with 0 in G. lia.
Qed.

(** * All phrases *)
Fixpoint held (a : atom) (f : form) : nat :=
  match f with
  | FMany l => list_sum (map (held a) l)
  | FExpr _ e | FItem e | FRel _ e | FNamed e | FTerm _ e | FBody e | FQuery e => occ a e
  | FClause _ _ o | FElse o | FOperand o | FFilter o | FFrom o => occ_opt a o
  | FWhens l => list_sum (map (fun cv => occ a (fst cv) + occ a (snd cv)) l)
  | FSort o => occ a (o_value o)
  | FOrder l => occs a (map o_value l)
  | FBound b => occs a (bound_kids b)
  | FFrame _ s e => occs a (bound_kids s) + occs a (bound_kids e)
  | FPartition l | FArgs l | FSet l => occs a l
  | FWindow w => own_window a w + below_window a w
  | FOver o => match o with Some w => own_window a w + below_window a w | None => 0 end
  | FGroup g => occs a (group_kids g)
  | FGroupBy o => match o with Some g => occs a (groupby_kids g) | None => 0 end
  | FCriteria c => own_crit a (Some c) + occs a (jcrit_kids c)
  | FWindef x => in_windef a x
  | FWindows l => in_windows a l
  | FSkim _ => 0
  end.
Lemma held_exprs a l : held a (FExprs l) = occs a l.
Proof. unfold FExprs. cbn [held]. now rewrite map_map. Qed.
Lemma held_items a l : held a (FMany (map FItem l)) = occs a l.
Proof. cbn [held]. now rewrite map_map. Qed.
Lemma held_named a l : held a (FMany (map FNamed l)) = occs a l.
Proof. cbn [held]. now rewrite map_map. Qed.
Lemma held_sorts a l : held a (FMany (map FSort l)) = occs a (map o_value l).
Proof. cbn [held]. unfold occs. now rewrite !map_map. Qed.
Lemma held_groups a l : held a (FMany (map FGroup l)) = occs a (concat (map group_kids l)).
Proof. cbn [held]. rewrite occs_concat. now rewrite !map_map. Qed.
Lemma held_sets a l : held a (FMany (map FSet l)) = occs a (concat l).
Proof. cbn [held]. rewrite occs_concat. now rewrite !map_map. Qed.
Lemma held_windefs a l : held a (FMany (map FWindef l)) = in_windows a l.
Proof. cbn [held]. now rewrite !map_map. Qed.
Lemma windows_split a ws :
  list_sum (map (fun nw => same a (AName (fst nw)) + own_window a (snd nw)) ws) + occs a (concat (map (fun nw => window_kids (snd nw)) ws))
  = in_windows a ws.
Proof.
  rewrite occs_concat, map_map. induction ws as [|w ws IH]; [reflexivity|]. rewrite in_windows_cons, <- IH. unfold in_windef, below_window.
  cbn [map list_sum fold_right] in *. unfold list_sum in *. lia.
Qed.

Ltac known a := repeat match goal with
  | H : name _ _ |- _ => apply (in_name_token a) in H
  | H : text _ _ |- _ => apply (in_text_token a) in H
  | H : name_list _ _ |- _ => apply (in_name_list a) in H
  | H : cols _ _ |- _ => apply (in_cols a) in H
  | H : as_name _ _ |- _ => apply (in_as_name a) in H
  | H : offset_of _ _ |- _ => apply (in_offset a) in H
  | H : limit_of _ _ |- _ => apply (in_limit a) in H
  | H : path ?l _, T : table_of ?l _ |- _ => apply (in_path a) in H; apply (in_table a) in T
  end.
Ltac count := rewrite ?in_tokens_app, ?in_tokens_paren; repeat (rewrite ?in_tokens_cons, ?in_tokens_app, ?in_tokens_paren);
  rewrite ?in_tokens_nil, ?sign_zero in *.
Ltac parts a := rewrite ?held_exprs, ?held_items, ?held_named, ?held_sorts, ?held_groups, ?held_sets, ?held_windefs in *;
  cbn [held occ_opt own own_tref own_crit own_fopts own_qattrs kids tref_kids opt_kids bound_kids group_kids groupby_kids jcrit_kids fst snd o_value] in *;
  rewrite ?occs_app, ?occs_cons, ?occs_opt in *; change (occs a []) with 0 in *.

Lemma means_atoms en a f ts : means en f ts -> held a f <= in_tokens a ts.
Proof.
  induction 1; known a.
  all: try solve [cbn [held]; count; lia].
  all: try solve [parts a; count; lia].
  all: try solve [parts a; rewrite ?occ_negated; rewrite occ_step; parts a; count; lia].
  all: try solve [cbn; lia].
  all: try solve [parts a; rewrite ?occ_kept; count; lia].
  all: try solve [parts a; erewrite in_interval by eassumption; lia].
  all: try solve [parts a; rewrite occ_now; lia].
  - cbn [held map] in *. match goal with |- list_sum (?x :: ?y) <= _ => change (x + list_sum y <= in_tokens a (ts ++ TSym "," :: tl)) end. count. lia.
  - (* || *) cbn [held] in *. rewrite occ_step. cbn [own kids fopts_kids no_fopts]. unfold own_fopts. cbn [fo_window no_fopts map opt_kids app].
    rewrite !occs_cons. change (occs a []) with 0. count. lia.
  - subst z. cbn [held occ own in_lit]. rewrite in_tokens_cons, in_tokens_nil. cbn [in_token].
    replace (Z.abs_N (Z.of_N (digits 0 s))) with (digits 0 s) by lia. lia.
  - subst z. cbn [held occ own in_lit]. rewrite !in_tokens_cons, in_tokens_nil. cbn [in_token].
    replace (Z.abs_N (- Z.of_N (digits 0 s))) with (digits 0 s) by lia. lia.
  - (* b.n *) cbn [held] in *. rewrite occ_step in *. parts a. count. destruct H0 as [-> | ->]; cbn [own_tref tref_kids] in *; lia.
  - (* lambda *) cbn [held] in *. rewrite occ_step. cbn [own kids]. rewrite in_names_cons, occs_cons. rewrite (occ_subst a [n] b) by assumption. change (in_names a []) with 0. change (occs a []) with 0. count. lia.
  - cbn [held] in *. rewrite occ_step. cbn [own kids]. rewrite occs_cons. rewrite (occ_subst a l b) by assumption. change (occs a []) with 0. count.
    destruct H as [[-> ->]|H]; [change (in_names a []) with 0; lia|]. apply (in_name_list a) in H. lia.
  - (* CASE *) cbn [held] in *. rewrite occ_step. cbn [own kids]. rewrite !occs_app, !occs_opt, occs_concat, map_map. count.
    replace (list_sum (map (fun cv => occs a [fst cv; snd cv]) l)) with (list_sum (map (fun cv => occ a (fst cv) + occ a (snd cv)) l)); [lia|].
    f_equal. apply map_ext. intros [u v']. rewrite !occs_cons. change (occs a []) with 0. lia.
  - cbn [held map fst snd] in *. match goal with |- list_sum [?u] <= ?w => change (u + 0 <= w) end. count. lia.
  - cbn [held map fst snd] in *. match goal with |- list_sum (?u :: ?v) <= ?w => change (u + list_sum v <= w) end. count. lia.
  - (* call *) cbn [held] in *. rewrite occ_step. cbn [own kids fopts_kids]. unfold own_fopts. cbn [fo_window].
    rewrite !occs_app, occs_opt, occ_arranged. unfold below_window in *. count. destruct w; change (occs a []) with 0; lia.
  - cbn [held] in *. rewrite occ_step. cbn [own kids fopts_kids]. unfold own_fopts. cbn [fo_window].
    rewrite !occs_app, occs_opt, occs_cons, (occ_step a (NStar r unknown)). unfold below_window in *. count. cbn [map own kids].
    assert (R : own_tref a r + occs a (tref_kids r) <= in_tokens a ts).
    { destruct H1 as [[-> ->]|(n' & tn' & H1 & -> & ->)]; [cbn; lia|]. apply (in_name_token a) in H1. cbn [own_tref tref_kids]. count. change (occs a []) with 0. lia. }
    change (occs a []) with 0. destruct w; change (occs a []) with 0; lia.
  - (* window *) cbn [held] in *. unfold own_window, below_window. cbn [w_parent window_kids]. rewrite !occs_app. count.
    destruct H as [[-> ->]|(n & -> & H)]; [|apply (in_name_token a) in H]; cbn [in_name]; lia.
  - cbn [held]. unfold own_window, below_window. cbn [named_window w_parent window_kids in_name map app bound_kids]. change (occs a []) with 0. count. lia.
  - cbn [held] in *. rewrite occ_step. cbn [own kids]. pose proof (occ_starred a b). count. lia.
  - cbn [held] in *. rewrite occ_step. cbn [own kids]. rewrite occs_cons, (occ_step a (NStar _ _)). cbn [own kids]. pose proof (occ_starred a b).
    change (occs a []) with 0. count. lia.
  - cbn [held] in *. unfold in_windef. cbn [fst snd]. count. lia.
  - rewrite held_windefs in *. cbn [held]. pose proof (in_windows_dict a l). count. lia.
  - (* SELECT *) rewrite held_items in *. cbn [held] in *. rewrite occ_step. cbn [own kids no_qattrs qattrs_kids map app].
    unfold own_qattrs. cbn [no_qattrs q_offset q_limit in_int]. rewrite !occs_app, !occs_opt. change (occs a []) with 0.
    pose proof (windows_split a ws). count. destruct gb; change (occs a []) with 0; lia.
  - cbn [held]. rewrite occ_step. cbn [own kids no_qattrs qattrs_kids map app]. unfold own_qattrs. cbn [no_qattrs q_offset q_limit in_int].
    rewrite occs_cons. change (occs a []) with 0. count. lia.
  - rewrite held_exprs in *. cbn [held]. rewrite occ_step. cbn [own kids no_qattrs qattrs_kids map app]. unfold own_qattrs. cbn [no_qattrs q_offset q_limit in_int].
    rewrite occs_app. change (occs a []) with 0. count. lia.
  - cbn [held] in *. rewrite occ_step. cbn [own kids no_qattrs qattrs_kids map app]. unfold own_qattrs. cbn [no_qattrs q_offset q_limit in_int].
    rewrite !occs_cons. change (occs a []) with 0. count. lia.
  - (* ORDER BY, OFFSET, LIMIT *) cbn [held] in *. count. destruct (attrs_of q) as [qa|] eqn:A.
    + pose proof (occ_dressed a q qa (mkQ [] ob off (given None lim)) A) as D. unfold own_qattrs at 2 in D. cbn [q_offset q_limit qattrs_kids app] in D. lia.
    + replace (dressed _ q) with q by (destruct q; try discriminate A; reflexivity). lia.
  - (* WITH *) rewrite held_named in *. cbn [held] in *. count. match goal with A : attrs_of q = Some ?qa |- context [dressed ?x _] => pose proof (occ_dressed a q qa x A) as D; destruct qa as [wi0 ob0 of0 lm0] end.
    unfold own_qattrs in D. cbn [q_orderby q_offset q_limit qattrs_kids] in *. rewrite !occs_app in D. lia.
Qed.
