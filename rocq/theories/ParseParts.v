(** Facts about the expression parser, part 2: ordering terms, windows, and the
    arguments and options of calls. *)
From Coq Require Import String Ascii List ZArith NArith Bool Lia Arith.
From Verif Require Import PyStr StrFacts Types Inference Lexer LexFacts TypeParser TypeRoundTrip
  Functions Ast Sql Parser Tokens ParseBase.
Import ListNotations.
Open Scope nat_scope.
Open Scope string_scope.
Open Scope list_scope.

(** An expression that [p] reads and that has the shape of one. *)
Record Rx (p : parser) (e : node) (ts : list token) : Prop := {
  rx_rd : Rd p e ts;
  rx_shape : shape 0 ts }.

Lemma Rx_Rd p l tss : Forall2 (Rx p) l tss -> Forall2 (Rd p) l tss.
Proof. intro H; induction H as [|? ? ? ? []]; constructor; auto. Qed.
Lemma Rx_shapes p l tss : Forall2 (Rx p) l tss -> Forall (shape 0) tss.
Proof. intro H; induction H as [|? ? ? ? []]; constructor; auto. Qed.

Lemma starter_kw ts k r : shape 0 ts -> eat_kw k (ts ++ r) <> None ->
  starter (TKw k k) = true.
Proof.
  intros [H1 _ _ _] H. destruct ts as [|t ts]; [contradiction|].
  destruct t as [w| | | | | | | | | | | | ]; try (exfalso; apply H; reflexivity). cbn [app eat_kw] in H.
  destruct (String.eqb_spec w k) as [->|]; [|congruence]. exact H1.
Qed.
Lemma not_kw ts k r : shape 0 ts -> starter (TKw k k) = false -> eat_kw k (ts ++ r) = None.
Proof.
  intros H S. destruct (eat_kw k (ts ++ r)) eqn:E; [|reflexivity].
  assert (starter (TKw k k) = true) by (apply (starter_kw ts k r H); rewrite E; discriminate). congruence.
Qed.
Lemma not_sym ts s r : shape 0 ts -> starter (TSym s) = false -> eat_sym s (ts ++ r) = None.
Proof.
  intros [H1 _ _ _] S. destruct ts as [|t ts]; [contradiction|].
  destruct t as [ | | | | | | | | | | |w| ]; try reflexivity. cbn [app eat_sym].
  destruct (String.eqb_spec w s) as [->|]; [|reflexivity]. congruence.
Qed.

(** * Ordering terms *)

(** What may follow an ordering term. *)
Definition sort_end (rest : list token) : Prop :=
  lev rest = 0 /\ eat_kw "ASC" rest = None /\ eat_kw "DESC" rest = None
  /\ eat_kw "NULLS" rest = None.

(** Ordering terms whose values are related. *)
Definition order_rel {A B} (R : A -> B -> Prop) (x : order A) (y : order B) : Prop :=
  R (o_value x) (o_value y) /\ o_desc x = o_desc y /\ o_nulls_first x = o_nulls_first y.

(** The tokens of an ordering term with the value's tokens filled in. *)
Definition order_text (x : order (list token)) : list token := order_toks (fun t => t) x.

Lemma p_sort_ok pe x y rest :
  order_rel (Rd pe) x y -> sort_end rest ->
  p_sort pe (order_text y ++ rest) = Ok (Ok x, rest).
Proof.
  destruct x as [v d n], y as [t d' n']. unfold order_rel; cbn [o_value o_desc o_nulls_first].
  intros (R & <- & <-) (L & A & D & N). unfold p_sort, order_text. cbn [order_toks].
  rewrite <- !app_assoc. rewrite R.
  2:{ destruct d; [reflexivity|]. destruct n; [reflexivity | exact L]. }
  cbn [bind].
  destruct d, n; cbn [app]; try rewrite A; try rewrite D; try rewrite N; try reflexivity.
  all: cbn; rewrite ?A, ?D, ?N; reflexivity.
Qed.

Lemma sorts_ok pe l tl rest :
  Forall2 (order_rel (Rd pe)) l tl -> l <> [] -> sort_end rest -> eat_sym "," rest = None ->
  sep (p_sort pe) (commas (map order_text tl) ++ rest) = Ok (Ok l, rest).
Proof.
  intros H N E C. apply sep_ok; auto. clear N. induction H; constructor; auto.
  intros r [->|[r' ->]]; apply p_sort_ok; auto. repeat split.
Qed.
Definition orders_text (tl : list (order (list token))) : list token := orders_toks (fun t => t) tl.
(** What may follow an ORDER BY clause. *)
Definition orders_end (rest : list token) : Prop :=
  sort_end rest /\ eat_sym "," rest = None /\ eat_kw "ORDER" rest = None.
Lemma p_orderby_ok pe l tl rest :
  Forall2 (order_rel (Rd pe)) l tl -> orders_end rest ->
  p_orderby pe (orders_text tl ++ rest)
  = Ok (match l with [] => None | _ => Some (Ok l) end, rest).
Proof.
  intros H (E & C & O). unfold orders_text. destruct H as [|x y l tl Hx Hl].
  - cbn [orders_toks app]. unfold p_orderby. now rewrite O.
  - cbn [orders_toks]. unfold p_orderby. cbn [app eat_kw K String.eqb Ascii.eqb Bool.eqb need bind].
    pose proof (sorts_ok pe (x :: l) (y :: tl) rest (Forall2_cons _ _ Hx Hl)) as S.
    change (order_toks (fun t => t)) with order_text.
    rewrite S; auto. discriminate.
Qed.

(** * Windows *)
Definition bound_rel {A B} (R : A -> B -> Prop) (x : bound A) (y : bound B) : Prop :=
  match x, y with
  | BBounded d v, BBounded d' t => d = d' /\ R v t
  | BUnbounded d, BUnbounded d' => d = d'
  | BCurrent, BCurrent => True
  | _, _ => False
  end.
Definition bound_text (y : bound (list token)) : list token := bound_toks (fun t => t) y.
Definition typed (e : node) : Prop := exists t, wrapped e (check e) = Ok t.
Lemma typed_not_none e : typed e -> e <> NNone.
Proof. intros [t H] ->. discriminate. Qed.

Definition Rt (pe : parser) (e : node) (ts : list token) : Prop := Rx pe e ts /\ typed e.
Lemma p_bound_ok pe x y rest :
  bound_rel (Rt pe) x y ->
  p_bound pe (bound_text y ++ rest) = Ok (Ok x, rest).
Proof.
  destruct x as [d v|d|], y as [d' t|d'|]; cbn [bound_rel]; try contradiction.
  - intros (<- & [R S] & [ty T]). unfold bound_text. cbn [bound_toks]. unfold p_bound.
    rewrite <- app_assoc. rewrite (not_kw t "UNBOUNDED"), (not_kw t "CURRENT") by (auto; reflexivity).
    cbn [need bind orelse]. rewrite R by (destruct d; reflexivity). cbn [bind].
    rewrite T. destruct d; reflexivity.
  - intros <-. destruct d; reflexivity.
  - reflexivity.
Qed.

(** A word that is read as an identifier and is no keyword. *)
Definition plain (n : string) : bool :=
  (wordy n && match word_token n with TId _ => true | _ => false end)%bool.
Lemma plain_token n : plain n = true -> word_token n = TId n.
Proof.
  unfold plain. intros [_ H]%andb_true_iff. unfold word_token in *.
  destruct (mem n keywords); [discriminate|]. destruct (mem n upper_keywords); [discriminate|].
  destruct (_ && _)%bool; [discriminate | reflexivity].
Qed.
Lemma plain_nonempty n : plain n = true -> n <> "".
Proof. intros H ->. discriminate. Qed.

Record window_rel (pe : parser) (x : window node) (y : window (list token)) : Prop := {
  wr_parent : w_parent x = w_parent y;
  wr_plain : match w_parent x with None => True | Some n => plain n = true end;
  wr_orderby : Forall2 (order_rel (Rd pe)) (w_orderby x) (w_orderby y);
  wr_partitions : Forall2 (Rd pe) (w_partitions x) (w_partitions y);
  wr_frame : w_frame x = w_frame y;
  wr_start : bound_rel (Rt pe) (w_start x) (w_start y);
  wr_end : bound_rel (Rt pe) (w_end x) (w_end y) }.
Definition window_text (y : window (list token)) : list token := window_toks (fun t => t) y.

Lemma frame_ok pe f s e s' e' rest :
  bound_rel (Rt pe) s s' -> bound_rel (Rt pe) e e' ->
  (let* (w, r) := p_frame pe f (K "BETWEEN" :: bound_text s' ++ K "AND" :: bound_text e' ++ rest) in
   Ok (w, r)) = Ok (Ok (mkWindow None [] [] f s e), rest).
Proof.
  intros S E. unfold p_frame. cbn [eat_kw K]. cbn [String.eqb Ascii.eqb Bool.eqb].
  rewrite (p_bound_ok pe s s' _ S). cbn [bind]. change (eat_kw "AND" (K "AND" :: ?x)) with (Some x).
  cbn [need bind eat_kw K String.eqb Ascii.eqb Bool.eqb].
  rewrite (p_bound_ok pe e e' rest E). reflexivity.
Qed.
Lemma frame_ahead_ok f r : frame_ahead (K (frame_text f) :: r) = Some (f, r).
Proof. destruct f; reflexivity. Qed.
Lemma orders_end_frame f r : orders_end (K (frame_text f) :: r).
Proof. destruct f; repeat split. Qed.
Lemma eat_partition_orders tl f r :
  eat_kw "PARTITION" (orders_text tl ++ K (frame_text f) :: r) = None.
Proof. destruct tl as [|[v d n] tl]; [destruct f|]; reflexivity. Qed.

Lemma p_winspec_ok pe x y rest :
  window_rel pe x y -> p_winspec pe (window_text y ++ rest) = Ok (Ok x, rest).
Proof.
  destruct x as [p ob ps f s e], y as [p' ob' ps' f' s' e']. intros [Hp Hpl Ho Hps Hf Hs He].
  cbn [w_parent w_orderby w_partitions w_frame w_start w_end] in *. subst p' f'.
  unfold window_text. cbn [window_toks].
  fold (bound_text s'). fold (bound_text e'). fold (orders_text ob').
  set (fr := K (frame_text f) :: K "BETWEEN" :: bound_text s' ++ K "AND" :: bound_text e').
  set (pt := match ps' with [] => [] | _ => _ end).
  assert (Hname : forall r, (r = pt ++ orders_text ob' ++ fr ++ rest) ->
     (let* (name, r) := if window_name_ahead
          (match p with None | Some "" => [] | Some n => [word_token n] end ++ r)
        then (let* (i, r) := p_ident (match p with None | Some "" => [] | Some n => [word_token n] end ++ r)
              in Ok (Some i, r))
        else Ok (None, match p with None | Some "" => [] | Some n => [word_token n] end ++ r) in
      Ok (name, r)) = Ok (match p with None => None | Some n => Some (IdUnquoted n) end, r)).
  { intros r Hr. destruct p as [n|].
    - pose proof (plain_nonempty _ Hpl). destruct n as [|c n]; [congruence|].
      rewrite (plain_token _ Hpl). reflexivity.
    - cbn [app]. assert (window_name_ahead r = false) as ->; [|reflexivity].
      subst r pt. destruct ps' as [|q qs]; [|reflexivity].
      unfold orders_text, fr. destruct ob'; [destruct f; reflexivity | reflexivity]. }
  unfold p_winspec. rewrite <- !app_assoc. specialize (Hname _ eq_refl).
  match goal with |- context [if ?b then ?x else ?y] =>
    set (N := (if b then x else y)) in *; assert (HN : N = Ok (match p with None => None
      | Some n => Some (IdUnquoted n) end, pt ++ orders_text ob' ++ fr ++ rest)) by
      (destruct N as [[? ?]|]; [cbn [bind] in Hname; congruence | discriminate Hname])
  end.
  rewrite HN. clear Hname HN N. cbn [bind].
  assert (Hparts : match eat_kw "PARTITION" (pt ++ orders_text ob' ++ fr ++ rest) with
    | Some r1 => let* r2 := need (eat_kw "BY" r1) in
                 let* (l, r3) := sep pe r2 in Ok (Some l, r3)
    | None => Ok (None, pt ++ orders_text ob' ++ fr ++ rest)
    end = Ok (match ps with [] => None | _ => Some (Ok ps) end, orders_text ob' ++ fr ++ rest)).
  { subst pt. destruct Hps as [|a ts l tss Ha Hl].
    - cbn [app]. unfold fr. cbn [app]. now rewrite eat_partition_orders.
    - cbn [app eat_kw K String.eqb Ascii.eqb Bool.eqb need bind].
      rewrite map_id. rewrite (exprs_ok pe _ (a :: l) (ts :: tss)); try reflexivity; auto; try discriminate.
      + unfold orders_text, fr. destruct ob'; [destruct f|]; reflexivity.
      + unfold orders_text, fr. destruct ob'; [destruct f|]; reflexivity. }
  rewrite Hparts. cbn [bind]. rewrite (p_orderby_ok pe ob ob'); [|exact Ho | apply orders_end_frame].
  cbn [bind]. unfold fr. cbn [app]. rewrite frame_ahead_ok. rewrite <- app_assoc. cbn [app].
  pose proof (frame_ok pe f s e s' e' rest Hs He) as F.
  destruct (p_frame _ _ _) as [[w r]|]; cbn [bind] in F |- *; [|discriminate F].
  injection F as -> ->. destruct p as [n|], ps, ob; reflexivity.
Qed.

(** * Calls *)
Definition opt_rel {A B} (R : A -> B -> Prop) (x : option A) (y : option B) : Prop :=
  match x, y with
  | None, None => True
  | Some a, Some b => R a b
  | _, _ => False
  end.
Definition filter_text (y : option (list token)) : list token := filter_toks (fun t => t) y.
Definition over_text (y : option (window (list token))) : list token := over_toks (fun t => t) y.

Lemma p_filter_ok pe x y rest :
  opt_rel (Rd pe) x y -> (x = None -> eat_kw "FILTER" rest = None) ->
  p_filter pe (filter_text y ++ rest) = Ok (match x with None => None | Some e => Some (Ok e) end, rest).
Proof.
  destruct x as [e|], y as [t|]; cbn [opt_rel]; try contradiction.
  - intros R _. unfold filter_text, p_filter. cbn [filter_toks app eat_kw K String.eqb Ascii.eqb Bool.eqb].
    rewrite eat_sym_same. cbn [app eat_kw K String.eqb Ascii.eqb Bool.eqb need bind].
    rewrite <- app_assoc. rewrite R by reflexivity. reflexivity.
  - intros _ H. unfold p_filter, filter_text. cbn [filter_toks app]. now rewrite H.
Qed.
Lemma p_over_ok pe x y rest :
  opt_rel (window_rel pe) x y -> (x = None -> eat_kw "OVER" rest = None) ->
  p_over pe (over_text y ++ rest) = Ok (match x with None => None | Some e => Some (Ok e) end, rest).
Proof.
  destruct x as [e|], y as [t|]; cbn [opt_rel]; try contradiction.
  - intros R _. unfold over_text, p_over, paren. cbn [over_toks app eat_kw K String.eqb Ascii.eqb Bool.eqb paren].
    unfold paren. cbn [app]. rewrite eat_sym_same. rewrite <- app_assoc.
    fold (window_text t). rewrite (p_winspec_ok pe e t _ R). reflexivity.
  - intros _ H. unfold p_over, over_text. cbn [over_toks app]. now rewrite H.
Qed.

Lemma lev_no_kw rest k : lev rest <= 9 -> kw_lev k = 10 -> eat_kw k rest = None.
Proof.
  intros H E. destruct rest as [|[w| | | | | | | | | | | | ] r]; try reflexivity. cbn [eat_kw].
  destruct (String.eqb_spec w k) as [->|]; [|reflexivity]. cbn [lev] in H. lia.
Qed.
Lemma lev_no_sym rest s : lev rest <= 9 -> sym_lev s = 10 -> eat_sym s rest = None.
Proof.
  intros H E. destruct rest as [|[ | | | | | | | | | | |w| ] r]; try reflexivity. cbn [eat_sym].
  destruct (String.eqb_spec w s) as [->|]; [|reflexivity]. cbn [lev] in H. lia.
Qed.

Definition fopts_text (y : fopts (list token)) : list token := fopts_toks (fun t => t) y.
Record fopts_rel (pe : parser) (x : fopts node) (y : fopts (list token)) : Prop := {
  fr_orderby : Forall2 (order_rel (Rd pe)) (fo_orderby x) (fo_orderby y);
  fr_filter : opt_rel (Rd pe) (fo_filter x) (fo_filter y);
  fr_window : opt_rel (window_rel pe) (fo_window x) (fo_window y);
  fr_ignore : fo_ignore x = fo_ignore y;
  fr_over : fo_ignore x = true -> fo_window x <> None }.
Definition call_of (fo : fopts node) (args : list node) : call :=
  mkCall (match fo_window fo with None => None | Some w => Some (Ok w) end)
         (match fo_orderby fo with [] => None | l => Some (Ok l) end)
         (match fo_filter fo with None => None | Some e => Some (Ok e) end)
         (if fo_ignore fo then Some true else None) (Ok args).

Lemma null_ok ig y rest :
  (ig = true -> exists w, y = Some w) -> lev rest <= 9 ->
  p_null_treatment ((if ig then [K "IGNORE"; K "NULLS"] else []) ++ over_text y ++ rest)
  = ((if ig then Some true else None), over_text y ++ rest).
Proof.
  intros H L. destruct ig.
  - destruct (H eq_refl) as [w ->]. reflexivity.
  - cbn [app]. destruct y as [w|]; [reflexivity|]. cbn [over_text over_toks app].
    unfold over_text; cbn [over_toks app]. unfold p_null_treatment.
    destruct rest as [|[k| | | | | | | | | | | | ] [|[n| | | | | | | | | | | | ] r]]; try reflexivity.
    destruct (String.eqb_spec k "IGNORE") as [->|]; [exfalso; revert L; vm_compute; lia|].
    destruct (String.eqb_spec k "RESPECT") as [->|]; [exfalso; revert L; vm_compute; lia|].
    reflexivity.
Qed.

Lemma star_none ts k : shape 0 ts -> eat_sym "." k = None -> star_ahead (ts ++ k) = None.
Proof.
  intros [S1 S2 _ _] E. destruct ts as [|t ts]; [contradiction|].
  assert (Hk : forall i, match ts ++ k with
    | TSym d :: TSym a :: TSym b :: r =>
        if (String.eqb d "." && String.eqb a "*" && String.eqb b ")")%bool
        then Some ((let* l := visit_ident i in mk (NStar (TRStr l) unknown)), r) else None
    | _ => None
    end = None).
  { intro i. destruct ts as [|u ts].
    - cbn [app]. destruct k as [|[ | | | | | | | | | | |d| ] k]; try reflexivity. cbn [eat_sym] in E.
      destruct (String.eqb d "."); [discriminate|].
      destruct k as [|[ | | | | | | | | | | |a| ] [|[ | | | | | | | | | | |b| ] k]]; reflexivity.
    - cbn [app]. destruct u as [ | | | | | | | | | | |d| ]; try reflexivity. cbn [second] in S2.
      apply andb_true_iff in S2 as [_ S2]. destruct (String.eqb d "."); cbn [negb orb] in S2.
      + destruct ts as [|v ts]; [discriminate|]. cbn [app].
        destruct v as [ | | | | | | | | | | |a| ]; try reflexivity.
        apply negb_true_iff in S2. rewrite S2. destruct (ts ++ k) as [|[ | | | | | | | | | | |b| ] ?]; reflexivity.
      + destruct (ts ++ k) as [|[ | | | | | | | | | | |a| ] [|[ | | | | | | | | | | |b| ] ?]]; reflexivity. }
  cbn [app].
  destruct t as [w txt| | | | | | | | | | |s| ]; try discriminate S1; try reflexivity;
    cbn [star_ahead p_ident]; try apply Hk.
  - destruct (mem w non_reserved); [apply Hk | reflexivity].
  - cbn [starter mem existsb] in S1. rewrite !orb_true_iff, !String.eqb_eq in S1.
    destruct S1 as [->|[->|[->|S1]]]; try discriminate S1;
      destruct (ts ++ k) as [|[ | | | | | | | | | | |b| ] ?]; reflexivity.
Qed.
Lemma commas_first ts tss r : exists k, commas (ts :: tss) ++ r = ts ++ k
  /\ (k = r \/ exists k', k = TSym "," :: k').
Proof.
  destruct tss as [|u tss]; [exists r; auto|]. rewrite commas_cons, <- app_assoc. cbn [app]. eauto.
Qed.
Lemma quant_none ts k : shape 0 ts -> p_quant (ts ++ k) = (None, ts ++ k).
Proof.
  intros [S1 _ _ _]. destruct ts as [|t ts]; [contradiction|]. destruct t as [w txt| | | | | | | | | | |s| ]; try reflexivity.
  cbn [app p_quant]. destruct (String.eqb_spec w "DISTINCT") as [->|]; [discriminate S1|].
  destruct (String.eqb_spec w "ALL") as [->|]; [discriminate S1|]. reflexivity.
Qed.
Lemma args_ahead ts k : shape 0 ts -> no_args_ahead (ts ++ k) = false.
Proof.
  intros [S1 _ _ _]. destruct ts as [|t ts]; [contradiction|]. destruct t as [w txt| | | | | | | | | | |s| ]; try reflexivity; cbn [app no_args_ahead].
  - destruct (String.eqb_spec w "ORDER") as [->|]; [discriminate S1|reflexivity].
  - destruct (String.eqb_spec s ")") as [->|]; [discriminate S1|reflexivity].
Qed.

Lemma options_ok pe fo y rest :
  fopts_rel pe fo y -> lev rest <= 9 ->
  (let* (fi, r4) := p_filter pe (fopts_text y ++ rest) in
   let '(nt, r5) := p_null_treatment r4 in
   let* (ov, r6) := p_over pe r5 in
   Ok (fi, nt, ov, r6))
  = Ok (match fo_filter fo with None => None | Some e => Some (Ok e) end,
        (if fo_ignore fo then Some true else None),
        match fo_window fo with None => None | Some w => Some (Ok w) end, rest).
Proof.
  destruct fo as [ob fi wi ig], y as [ob' fi' wi' ig']. intros [_ Hf Hw Hi Ho] L.
  cbn [fo_orderby fo_filter fo_window fo_ignore] in *. subst ig'.
  unfold fopts_text. cbn [fopts_toks]. fold (filter_text fi'). fold (over_text wi'). rewrite <- !app_assoc.
  rewrite (p_filter_ok pe fi fi' _ Hf).
  2:{ intros _. destruct ig; [reflexivity|]. cbn [app]. destruct wi'; [reflexivity|].
      unfold over_text; cbn [over_toks app]. now apply lev_no_kw. }
  cbn [bind]. rewrite null_ok; auto.
  2:{ intro E. specialize (Ho E). destruct wi, wi'; try contradiction; eauto. }
  rewrite (p_over_ok pe wi wi' rest Hw); [reflexivity|]. intros _. now apply lev_no_kw.
Qed.

Definition args_text (tss : list (list token)) (y : fopts (list token)) : list token :=
  paren (commas tss ++ orders_text (fo_orderby y)) ++ fopts_text y.
Lemma p_call_ok en pe names l tss fo y rest :
  Forall2 (Rx pe) l tss -> fopts_rel pe fo y -> lev rest <= 9 ->
  (exists r, args_text tss y ++ rest = TSym "(" :: r
     /\ p_call en pe names r = Ok (v_call en names (call_of fo l), rest)).
Proof.
  intros Hl Hy L. set (tail := TSym ")" :: fopts_text y ++ rest).
  exists (commas tss ++ orders_text (fo_orderby y) ++ tail).
  split; [unfold args_text, paren; cbn [app]; now rewrite <- !app_assoc|].
  assert (Hs : star_ahead (commas tss ++ orders_text (fo_orderby y) ++ tail) = None).
  { destruct Hl as [|a ts l tss [_ S] _].
    - destruct (fo_orderby y) as [|[]]; [|reflexivity].
      unfold tail. destruct (fopts_text y ++ rest) as [|[]]; reflexivity.
    - destruct (commas_first ts tss (orders_text (fo_orderby y) ++ tail)) as (k & -> & [->|[k' ->]]).
      + apply star_none; auto. destruct (fo_orderby y) as [|[]]; reflexivity.
      + apply star_none; auto. }
  unfold p_call. rewrite Hs.
  assert (Ha : (if no_args_ahead (commas tss ++ orders_text (fo_orderby y) ++ tail)
     then Ok (Ok [], commas tss ++ orders_text (fo_orderby y) ++ tail)
     else let '(_, r) := p_quant (commas tss ++ orders_text (fo_orderby y) ++ tail) in sep pe r)
     = Ok (Ok l, orders_text (fo_orderby y) ++ tail)).
  { destruct Hl as [|a ts l tss H1 Hl].
    - destruct (fo_orderby y) as [|[]]; reflexivity.
    - destruct (commas_first ts tss (orders_text (fo_orderby y) ++ tail)) as (k & E & _).
      rewrite E, args_ahead, quant_none by apply H1. rewrite <- E.
      apply exprs_ok; try discriminate.
      + destruct (fo_orderby y) as [|[]]; reflexivity.
      + apply Rx_Rd. now constructor.
      + destruct (fo_orderby y) as [|[]]; reflexivity. }
  rewrite Ha. cbn [bind].
  rewrite (p_orderby_ok pe (fo_orderby fo) (fo_orderby y)); [|apply Hy | repeat split].
  cbn [bind]. unfold tail. rewrite eat_sym_same. cbn [need bind].
  pose proof (options_ok pe fo y rest Hy L) as O.
  destruct (p_filter pe (fopts_text y ++ rest)) as [[fi r4]|]; cbn [bind] in O |- *; [|discriminate O].
  destruct (p_null_treatment r4) as [nt r5].
  destruct (p_over pe r5) as [[ov r6]|]; cbn [bind] in O |- *; [|discriminate O].
  injection O as -> -> -> ->. unfold call_of. destruct (fo_orderby fo); reflexivity.
Qed.
(** COUNT of a star. *)
Lemma p_call_star en pe names fo y rest :
  fopts_rel pe fo y -> fo_orderby fo = [] -> fo_ignore fo = false -> lev rest <= 9 ->
  p_call en pe names (TSym "*" :: TSym ")" :: fopts_text y ++ rest)
  = Ok (v_call en names (call_of fo [NStar TRNone unknown]), rest).
Proof.
  intros Hy Ho Hi L. unfold p_call. cbn [star_ahead String.eqb Ascii.eqb Bool.eqb andb].
  destruct fo as [ob fi wi ig], y as [ob' fi' wi' ig']. destruct Hy as [_ Hf Hw Hig _].
  cbn [fo_orderby fo_filter fo_window fo_ignore] in *. subst ob ig ig'.
  unfold fopts_text. cbn [fopts_toks app]. fold (filter_text fi'). fold (over_text wi'). rewrite <- app_assoc.
  rewrite (p_filter_ok pe fi fi' _ Hf).
  2:{ intros _. destruct wi'; [reflexivity|]. unfold over_text; cbn [over_toks app]. now apply lev_no_kw. }
  cbn [bind]. rewrite (p_over_ok pe wi wi' rest Hw); [reflexivity|]. intros _. now apply lev_no_kw.
Qed.
