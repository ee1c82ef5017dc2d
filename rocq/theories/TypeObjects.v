(** Every object built through the public constructor is (up to the order of
    its parameter dict) one of the canonical types; its text and the round trip
    at the level of objects. *)
From Coq Require Import String Ascii List ZArith NArith Bool Lia Arith.
From Verif Require Import PyStr StrFacts Types TypeFacts Lexer LexFacts TypeParser TypeRoundTrip.
Import ListNotations.
Open Scope string_scope.

(** Objects obtained by calling the constructor on already built objects, with
    non-negative integers, no [bool] in place of an integer, and no empty ROW. *)
Inductive built : rawdt -> Prop :=
| built_mk name ps r :
    mk_datatype name ps = Ok r ->
    (forall k t, In (k, PDT t) ps -> built t) ->
    (forall k l, In (k, PList l) ps -> l <> []) ->
    (forall k l t, In (k, PList l) ps -> In (PDT t) l -> built t) ->
    (forall k z, In (k, PInt z) ps -> (0 <= z)%Z) ->
    (forall k b, In (k, PBool b) ps -> k = "timezone") ->
    built r.

(** Python [==] on such objects: same name, equal parameter dicts. *)
Inductive same : rawdt -> rawdt -> Prop :=
| same_dt n ps qs :
    (forall k, same_opt (assoc k ps) (assoc k qs)) -> same (RDT n ps) (RDT n qs)
with same_opt : option pval -> option pval -> Prop :=
| so_none : same_opt None None
| so_some v x : same_val v x -> same_opt (Some v) (Some x)
with same_val : pval -> pval -> Prop :=
| sv_int z : same_val (PInt z) (PInt z)
| sv_bool b : same_val (PBool b) (PBool b)
| sv_str s : same_val (PStr s) (PStr s)
| sv_none : same_val PNone PNone
| sv_dt t u : same t u -> same_val (PDT t) (PDT u)
| sv_list l m : same_vals l m -> same_val (PList l) (PList m)
with same_vals : list pval -> list pval -> Prop :=
| sl_nil : same_vals [] []
| sl_cons v x l m : same_val v x -> same_vals l m -> same_vals (v :: l) (x :: m).

(** [r] is an object whose parameter dict reads as the canonical type [t]. *)
Definition like (ps qs : list (string * pval)) : Prop := forall k, assoc k ps = assoc k qs.
Fixpoint reps (r : rawdt) (t : dtype) {struct t} : Prop :=
  rname r = type_name t /\
  match t with
  | TArray t | TQdigest t =>
      exists u, reps u t /\ like (rparams r) [("dtype", PDT u)]
  | TMap k v =>
      exists uk uv, reps uk k /\ reps uv v
        /\ like (rparams r) [("from_dtype", PDT uk); ("to_dtype", PDT uv)]
  | TRow l =>
      exists us, (fix go (us : list rawdt) (l : list dtype) {struct l} : Prop :=
                    match l, us with
                    | [], [] => True
                    | t :: l', u :: us' => reps u t /\ go us' l'
                    | _, _ => False
                    end) us l
        /\ like (rparams r) [("dtypes", PList (map PDT us))]
  | t => like (rparams r) (rparams (raw_of t))
  end.

Lemma reps_name r t : reps r t -> rname r = type_name t.
Proof. destruct t; cbn; tauto. Qed.
Lemma reps_row r l :
  reps r (TRow l) <->
  rname r = "ROW" /\ exists us, Forall2 reps us l /\ like (rparams r) [("dtypes", PList (map PDT us))].
Proof.
  cbn [reps type_name].
  set (go := fix go (us : list rawdt) (l : list dtype) {struct l} : Prop :=
                    match l, us with
                    | [], [] => True
                    | t :: l', u :: us' => reps u t /\ go us' l'
                    | _, _ => False
                    end).
  assert (H : forall us l, go us l <-> Forall2 reps us l).
  { clear. intros us l; revert us; induction l as [|t l IH]; intros [|u us]; cbn.
    - split; auto.
    - split; [tauto | intro H; inversion H].
    - split; [tauto | intro H; inversion H].
    - rewrite IH. split; [intros [? ?]; constructor; auto | intro H; inversion H; subst; auto]. }
  split; intros [Hn (us & Hus & Hl)]; (split; [exact Hn|]); exists us; (split; [apply H, Hus | exact Hl]).
Qed.

Lemma reps_raw_of t : reps (raw_of t) t.
Proof.
  induction t as [s|p s|m|m|p z|p z|k|t IH|k v IHk IHv|l IH|t IH] using dtype_ind';
    try (split; [reflexivity | intro; reflexivity]).
  - split; [reflexivity|]. exists (raw_of t); split; [exact IH | intro; reflexivity].
  - split; [reflexivity|]. exists (raw_of k), (raw_of v). repeat split; auto.
  - apply reps_row. split; [reflexivity|]. exists (map raw_of l). split.
    + clear - IH. induction IH; cbn; constructor; auto.
    + cbn. rewrite map_map. intro; reflexivity.
  - split; [reflexivity|]. exists (raw_of t); split; [exact IH | intro; reflexivity].
Qed.

Lemma same_opt_self_simple ps qs rs :
  like ps rs -> like qs rs ->
  (forall k v, assoc k rs = Some v -> same_val v v) ->
  forall k, same_opt (assoc k ps) (assoc k qs).
Proof.
  intros H1 H2 H k. rewrite H1, H2. destruct (assoc k rs) eqn:E; constructor; eauto.
Qed.

Lemma reps_same t : forall a b, reps a t -> reps b t -> same a b.
Proof.
  assert (Hplain : forall t a b,
     match t with TArray _ | TQdigest _ | TMap _ _ | TRow _ => False | _ => True end ->
     reps a t -> reps b t -> same a b).
  { intros u [na pa] [nb pb] Hu Ha Hb.
    pose proof (reps_name _ _ Ha) as Na; pose proof (reps_name _ _ Hb) as Nb. cbn in Na, Nb. subst.
    constructor.
    assert (La : like pa (rparams (raw_of u))) by (destruct u; try contradiction; apply Ha).
    assert (Lb : like pb (rparams (raw_of u))) by (destruct u; try contradiction; apply Hb).
    eapply same_opt_self_simple; [exact La | exact Lb |].
    intros k v Hk. apply assoc_In in Hk. clear - Hk Hu.
    destruct u as [s|p s|[m|]|m|[p|] z|[p|] z|kk| | | |]; try contradiction; cbn in Hk;
      repeat match type of Hk with _ \/ _ => destruct Hk as [Hk|Hk] end;
      try contradiction; injection Hk as _ <-; constructor. }
  induction t as [s|p s|m|m|p z|p z|k|t IH|k v IHk IHv|l IH|t IH] using dtype_ind';
    intros a b Ha Hb; try (refine (Hplain _ a b _ Ha Hb); exact I).
  - destruct a as [na pa], b as [nb pb]. destruct Ha as [Na (ua & Ra & La)], Hb as [Nb (ub & Rb & Lb)].
    cbn in *; subst. constructor. intro k; rewrite La, Lb; cbn.
    destruct (String.eqb k "dtype"); repeat constructor; auto.
  - destruct a as [na pa], b as [nb pb].
    destruct Ha as [Na (ua & va & Ra & Sa & La)], Hb as [Nb (ub & vb & Rb & Sb & Lb)].
    cbn in *; subst. constructor. intro x; rewrite La, Lb; cbn.
    destruct (String.eqb x "from_dtype"); [repeat constructor; auto|].
    destruct (String.eqb x "to_dtype"); repeat constructor; auto.
  - apply reps_row in Ha; apply reps_row in Hb.
    destruct a as [na pa], b as [nb pb]. destruct Ha as [Na (ua & Ra & La)], Hb as [Nb (ub & Rb & Lb)].
    cbn in *; subst. constructor. intro k; rewrite La, Lb; cbn.
    destruct (String.eqb k "dtypes"); [|constructor]. constructor. constructor.
    clear - IH Ra Rb. revert ua ub Ra Rb.
    induction IH as [|x r Hx Hr IHr]; intros ua ub Ra Rb; inversion Ra; inversion Rb; subst; cbn;
      repeat constructor; auto.
  - destruct a as [na pa], b as [nb pb]. destruct Ha as [Na (ua & Ra & La)], Hb as [Nb (ub & Rb & Lb)].
    cbn in *; subst. constructor. intro k; rewrite La, Lb; cbn.
    destruct (String.eqb k "dtype"); repeat constructor; auto.
Qed.

(** * Text of an object *)

Definition shown_of (ps : list (string * pval)) : list (string * result string) :=
  map (fun kv => (fst kv, pval_str (snd kv))) ps.
Lemma assoc_shown k ps : assoc k (shown_of ps) = option_map pval_str (assoc k ps).
Proof.
  induction ps as [|[k' v] ps IH]; cbn; [reflexivity|]. destruct (String.eqb k k'); [reflexivity | exact IH].
Qed.
Definition look (k : string) (ps : list (string * pval)) : result string :=
  match assoc k ps with Some v => pval_str v | None => Err KeyError end.

Lemma raw_sql_eq name ps :
  raw_sql (RDT name ps) =
  if (String.eqb name "TIMESTAMP" || String.eqb name "TIME")%bool then
    let* p := match assoc "precision" ps with
              | None | Some PNone => Ok ""
              | Some v => let* s := pval_str v in Ok ("(" ++ s ++ ")")
              end in
    let z := match assoc "timezone" ps with Some (PBool true) => " WITH TIME ZONE" | _ => "" end in
    Ok (name ++ p ++ z)
  else if String.eqb name "INTERVAL" then
    let* f := look "from_interval" ps in
    let* t := look "to_interval" ps in
    Ok (name ++ " " ++ f ++ " TO " ++ t)
  else if String.eqb name "ROW" then
    let* s := look "dtypes" ps in Ok (name ++ "(" ++ s ++ ")")
  else
    match ps with
    | [] => Ok name
    | _ =>
        let* vs := map_result (fun f => match assoc (pname f) ps with
                                        | Some v => pval_str v
                                        | None => Err AssertionError
                                        end) (fields name) in
        Ok (name ++ "(" ++ join "," vs ++ ")")
    end.
Proof.
  cbn [raw_sql].
  match goal with |- context [assoc "precision" (?f ps)] => set (go := f) end.
  assert (E : forall ps, go ps = shown_of ps).
  { clear. induction ps as [|[k v] ps IH]; [reflexivity|].
    change (go ((k, v) :: ps)) with ((k, pval_str v) :: go ps). rewrite IH. reflexivity. }
  rewrite !E, !assoc_shown. unfold look.
  destruct (String.eqb name "TIMESTAMP" || String.eqb name "TIME")%bool.
  { destruct (assoc "precision" ps) as [v|]; cbn; [|reflexivity].
    destruct v; reflexivity. }
  destruct (String.eqb name "INTERVAL").
  { destruct (assoc "from_interval" ps), (assoc "to_interval" ps); reflexivity. }
  destruct (String.eqb name "ROW").
  { destruct (assoc "dtypes" ps); reflexivity. }
  destruct ps as [|kv ps]; [reflexivity|].
  f_equal. generalize (kv :: ps) as qs. intro qs.
  induction (fields name) as [|f fs IH]; cbn; [reflexivity|].
  rewrite assoc_shown. destruct (assoc (pname f) qs); cbn; [|reflexivity].
  now rewrite IH.
Qed.

Lemma like_nil ps : like ps [] -> ps = [].
Proof.
  destruct ps as [|[k v] ps]; [reflexivity|]. intro H; specialize (H k); cbn in H.
  now rewrite String.eqb_refl in H.
Qed.
Lemma like_cons_nonempty ps k v qs : like ps ((k, v) :: qs) -> exists kv r, ps = kv :: r.
Proof.
  destruct ps as [|kv ps]; [|eauto]. intro H; specialize (H k); cbn in H.
  now rewrite String.eqb_refl in H.
Qed.

Lemma pval_str_list us (l : list dtype) :
  Forall2 (fun u t => raw_sql u = Ok (type_sql t)) us l ->
  pval_str (PList (map PDT us)) = Ok (join "," (map type_sql l)).
Proof.
  intro H. cbn [pval_str].
  match goal with |- bind (?f _) _ = _ => set (go := f) end.
  assert (E : go (map PDT us) = Ok (map type_sql l)).
  { clear - H. induction H as [|u t us l Hu Hr IH]; [reflexivity|].
    cbn [map go pval_str]. rewrite Hu. cbn [bind]. fold go. rewrite IH. reflexivity. }
  now rewrite E.
Qed.

Lemma raw_sql_reps t : forall r, reps r t -> raw_sql r = Ok (type_sql t).
Proof.
  induction t as [s|p s|m|m|p z|p z|k|t IH|k v IHk IHv|l IH|t IH] using dtype_ind';
    intros [n ps] H.
  - destruct H as [Hn Hl]. cbn in Hn, Hl; subst n. apply like_nil in Hl; subst ps.
    destruct s; reflexivity.
  - destruct H as [Hn Hl]. cbn in Hn, Hl; subst n. rewrite raw_sql_eq.
    cbn [String.eqb Ascii.eqb Bool.eqb orb].
    destruct (like_cons_nonempty _ _ _ _ Hl) as (kv & r & E). rewrite E, <- E.
    change (fields "DECIMAL") with [mkP "precision" false KInt (Some (PInt 38)); mkP "scale" false KInt (Some (PInt 0))].
    cbn [map_result pname]. rewrite !Hl. cbn -[str_of_Z]. rewrite ?sapp_assoc. reflexivity.
  - destruct H as [Hn Hl]. cbn in Hn, Hl; subst n. rewrite raw_sql_eq.
    cbn [String.eqb Ascii.eqb Bool.eqb orb]. destruct m as [m|]; cbn in Hl.
    + destruct (like_cons_nonempty _ _ _ _ Hl) as (kv & r & E). rewrite E, <- E.
      change (fields "VARCHAR") with [mkP "max_chars" false KInt None].
      cbn [map_result pname]. rewrite Hl. cbn -[str_of_Z]. rewrite ?sapp_assoc. reflexivity.
    + apply like_nil in Hl; subst ps. reflexivity.
  - destruct H as [Hn Hl]. cbn in Hn, Hl; subst n. rewrite raw_sql_eq.
    cbn [String.eqb Ascii.eqb Bool.eqb orb].
    destruct (like_cons_nonempty _ _ _ _ Hl) as (kv & r & E). rewrite E, <- E.
    change (fields "CHAR") with [mkP "max_chars" false KInt (Some (PInt 1))].
    cbn [map_result pname]. rewrite Hl. cbn -[str_of_Z]. rewrite ?sapp_assoc. reflexivity.
  - destruct H as [Hn Hl]. cbn in Hn; subst n. rewrite raw_sql_eq.
    cbn [String.eqb Ascii.eqb Bool.eqb orb]. rewrite !Hl.
    destruct p as [p|], z; reflexivity.
  - destruct H as [Hn Hl]. cbn in Hn; subst n. rewrite raw_sql_eq.
    cbn [String.eqb Ascii.eqb Bool.eqb orb]. rewrite !Hl.
    destruct p as [p|], z; reflexivity.
  - destruct H as [Hn Hl]. cbn in Hn; subst n. rewrite raw_sql_eq.
    cbn [String.eqb Ascii.eqb Bool.eqb orb]. unfold look. rewrite !Hl.
    destruct k; reflexivity.
  - destruct H as [Hn (u & Hu & Hl)]. cbn in Hn, Hl; subst n. rewrite raw_sql_eq.
    cbn [String.eqb Ascii.eqb Bool.eqb orb].
    destruct (like_cons_nonempty _ _ _ _ Hl) as (kv & r & E). rewrite E, <- E.
    change (fields "ARRAY") with [mkP "dtype" true KDT None].
    cbn [map_result pname]. rewrite !Hl. cbn [assoc String.eqb Ascii.eqb Bool.eqb pval_str].
    rewrite (IH u Hu). reflexivity.
  - destruct H as [Hn (uk & uv & Hk & Hv & Hl)]. cbn in Hn, Hl; subst n. rewrite raw_sql_eq.
    cbn [String.eqb Ascii.eqb Bool.eqb orb].
    destruct (like_cons_nonempty _ _ _ _ Hl) as (kv & r & E). rewrite E, <- E.
    change (fields "MAP") with [mkP "from_dtype" true KDT None; mkP "to_dtype" true KDT None].
    cbn [map_result pname]. rewrite !Hl. cbn [assoc String.eqb Ascii.eqb Bool.eqb pval_str].
    rewrite (IHk uk Hk), (IHv uv Hv). cbn -[type_sql]. rewrite ?sapp_assoc. reflexivity.
  - apply reps_row in H. destruct H as [Hn (us & Hus & Hl)]. cbn in Hn, Hl; subst n. rewrite raw_sql_eq.
    cbn [String.eqb Ascii.eqb Bool.eqb orb]. unfold look. rewrite Hl.
    cbn [assoc String.eqb Ascii.eqb Bool.eqb].
    rewrite (pval_str_list us l); [reflexivity|].
    clear - IH Hus. revert us Hus. induction IH as [|x r Hx Hr IHr]; intros us Hus; inversion Hus; subst;
      constructor; auto.
  - destruct H as [Hn (u & Hu & Hl)]. cbn in Hn, Hl; subst n. rewrite raw_sql_eq.
    cbn [String.eqb Ascii.eqb Bool.eqb orb].
    destruct (like_cons_nonempty _ _ _ _ Hl) as (kv & r & E). rewrite E, <- E.
    change (fields "QDIGEST") with [mkP "dtype" true KDT None].
    cbn [map_result pname]. rewrite !Hl. cbn [assoc String.eqb Ascii.eqb Bool.eqb pval_str].
    rewrite (IH u Hu). reflexivity.
Qed.

(** * Built objects are canonical *)

Lemma built_reps r : built r -> exists t, wf_type t = true /\ reps r t.
Proof.
  intro B. induction B as [name ps r Hmk Hdt IHdt Hne Hlist IHlist Hint Hbool].
  pose proof (mk_datatype_spec name ps) as S. rewrite Hmk in S.
  destruct S as (Hv & Hn & Hc & Hkeys). clear Hmk. revert Hv Hn Hc Hkeys.
  generalize (upper name) as n. clear name. intros n Hv Hn Hc Hkeys.
  destruct r as [n' qs]. cbn [rname] in Hn; subst n'. cbn [rparams] in *.
  destruct Hv as (Hin & Hknown & Hkind & Hreq & Hrange).
  specialize (Hrange _ Hc).
  assert (Hno : forall k, (forall kd pr, ~ has_param n k kd pr) -> assoc k qs = None).
  { intros k Hk. destruct (assoc k qs) as [v|] eqn:E; [|reflexivity].
    apply assoc_In, Hkeys in E. destruct E as (kd & pr & E). exfalso; eapply Hk; eauto. }
  assert (Hgiven : forall k v, assoc k qs = Some v ->
            (In (k, v) ps /\ assoc k ps = Some v) \/ (exists kd, has_param n k kd (Default v))).
  { intros k v E. specialize (Hc k). destruct (assoc k ps) as [x|] eqn:Ek.
    - rewrite E in Hc. injection Hc as ->. left; split; [now apply assoc_In | reflexivity].
    - destruct Hc as [Hd Hnd]. destruct (has_default_dec n k) as [(kd & d & Hp)|Hp].
      + rewrite (Hd _ _ Hp) in E. injection E as ->. right; eauto.
      + rewrite (Hnd Hp) in E. discriminate. }
  assert (Hdef : forall k kd d, has_param n k kd (Default d) -> exists v, assoc k qs = Some v).
  { intros k kd d Hp. specialize (Hc k). destruct (assoc k ps); [eauto|]. destruct Hc as [Hd _].
    rewrite (Hd _ _ Hp); eauto. }
  assert (Hrq : forall k kd, has_param n k kd Required -> exists v, assoc k qs = Some v /\ In (k, v) ps).
  { intros k kd Hp. destruct (Hreq _ _ Hp) as [v Ev]. specialize (Hc k). rewrite Ev in Hc.
    exists v; split; [exact Hc | now apply assoc_In]. }
  (* integer parameters *)
  assert (Hintk : forall k pr v, has_param n k KInt pr -> k <> "timezone" ->
            (forall d, pr = Default d -> exists z, d = PInt z /\ (0 <= z)%Z) ->
            (forall kd d, has_param n k kd (Default d) -> pr = Default d) ->
            assoc k qs = Some v -> exists z, v = PInt z /\ (0 <= z)%Z).
  { intros k pr v Hp Hk Hd Hu E. destruct (Hgiven _ _ E) as [[Hi Ea]|[kd Hp']].
    - pose proof (Hkind _ _ _ _ Ea Hp) as Hki. destruct v; try discriminate Hki.
      + eexists; split; [reflexivity | eapply Hint, Hi].
      + apply Hbool in Hi; congruence.
    - apply Hd. eapply Hu, Hp'. }
  cbn in Hin.
  repeat (destruct Hin as [<-|Hin];
          [first
             [ (* nonparametric *)
               assert (Hnil : qs = []) by
                 (apply like_nil; intro k; cbn [assoc]; apply Hno; intros kd pr Hp; inversion Hp);
               subst qs;
               match goal with |- exists t, _ /\ reps (RDT ?m []) t =>
                 let s := constr:(find (fun s => String.eqb m (simple_name s)) all_simple) in
                 let s' := eval vm_compute in s in
                 match s' with Some ?x => exists (TSimple x); split; [reflexivity|];
                   split; [reflexivity | intro; reflexivity] end
               end
             | idtac ] |]).
  - (* DECIMAL *)
    destruct (Hdef "precision" KInt (PInt 38) hp_dec_p) as [vp Ep].
    destruct (Hdef "scale" KInt (PInt 0) hp_dec_s) as [vs Es].
    destruct (Hintk "precision" _ vp hp_dec_p) as (p & -> & Hp); [discriminate | | | exact Ep |].
    { intros d E; injection E as <-; eexists; split; [reflexivity | lia]. }
    { intros kd d Hp; inversion Hp; subst; reflexivity. }
    destruct (Hintk "scale" _ vs hp_dec_s) as (s & -> & Hs); [discriminate | | | exact Es |].
    { intros d E; injection E as <-; eexists; split; [reflexivity | lia]. }
    { intros kd d Hp'; inversion Hp'; subst; reflexivity. }
    exists (TDecimal p s). split.
    + destruct Hrange as (Hr & _). destruct (Hr eq_refl) as (v & Ev & Hb).
      rewrite Ep in Ev. injection Ev as <-. cbn in Hb. cbn.
      rewrite !andb_true_iff, !Z.leb_le; lia.
    + split; [reflexivity|]. intro k. cbn.
      destruct (String.eqb_spec k "precision") as [->|H1]; [exact Ep|].
      destruct (String.eqb_spec k "scale") as [->|H2]; [exact Es|].
      apply Hno; intros kd pr Hp'; inversion Hp'; congruence.
  - (* VARCHAR *)
    destruct (assoc "max_chars" qs) as [v|] eqn:E.
    + destruct (Hintk "max_chars" _ v hp_varchar) as (m & -> & Hm); [discriminate | discriminate | | exact E |].
      { intros kd d Hp; inversion Hp. }
      exists (TVarchar (Some m)). split; [cbn; now apply Z.leb_le|].
      split; [reflexivity|]. intro k; cbn.
      destruct (String.eqb_spec k "max_chars") as [->|H1]; [exact E|].
      apply Hno; intros kd pr Hp'; inversion Hp'; congruence.
    + exists (TVarchar None). split; [reflexivity|]. split; [reflexivity|].
      intro k; cbn. destruct (String.eqb_spec k "max_chars") as [->|H1]; [exact E|].
      apply Hno; intros kd pr Hp'; inversion Hp'; congruence.
  - (* CHAR *)
    destruct (Hdef "max_chars" KInt (PInt 1) hp_char) as [v E].
    destruct (Hintk "max_chars" _ v hp_char) as (m & -> & Hm); [discriminate | | | exact E |].
    { intros d E'; injection E' as <-; eexists; split; [reflexivity | lia]. }
    { intros kd d Hp; inversion Hp; subst; reflexivity. }
    exists (TChar m). split; [cbn; now apply Z.leb_le|].
    split; [reflexivity|]. intro k; cbn.
    destruct (String.eqb_spec k "max_chars") as [->|H1]; [exact E|].
    apply Hno; intros kd pr Hp'; inversion Hp'; congruence.
  - (* TIME *)
    destruct (Hdef "timezone" KBool (PBool false) hp_time_z) as [vz Ez].
    assert (Hz : exists z, vz = PBool z).
    { destruct (Hgiven _ _ Ez) as [[_ Ea]|[kd Hp]].
      - pose proof (Hkind _ _ _ _ Ea hp_time_z) as Hki. destruct vz; try discriminate Hki; eauto.
      - inversion Hp; eauto. }
    destruct Hz as [z ->].
    destruct (assoc "precision" qs) as [v|] eqn:E.
    + destruct (Hintk "precision" _ v hp_time_p) as (m & -> & Hm); [discriminate | discriminate | | exact E |].
      { intros kd d Hp; inversion Hp. }
      exists (TTime (Some m) z). split.
      * destruct Hrange as (_ & Hr & _). specialize (Hr (or_introl eq_refl) _ E). cbn in Hr.
        cbn. rewrite andb_true_iff, !Z.leb_le; lia.
      * split; [reflexivity|]. intro k; cbn.
        destruct (String.eqb_spec k "precision") as [->|H1]; [exact E|].
        destruct (String.eqb_spec k "timezone") as [->|H2]; [exact Ez|].
        apply Hno; intros kd pr Hp'; inversion Hp'; congruence.
    + exists (TTime None z). split; [reflexivity|]. split; [reflexivity|].
      intro k; cbn.
      destruct (String.eqb_spec k "timezone") as [->|H2]; [exact Ez|].
      destruct (String.eqb_spec k "precision") as [->|H1]; [exact E|].
      apply Hno; intros kd pr Hp'; inversion Hp'; congruence.
  - (* TIMESTAMP *)
    destruct (Hdef "timezone" KBool (PBool false) hp_ts_z) as [vz Ez].
    assert (Hz : exists z, vz = PBool z).
    { destruct (Hgiven _ _ Ez) as [[_ Ea]|[kd Hp]].
      - pose proof (Hkind _ _ _ _ Ea hp_ts_z) as Hki. destruct vz; try discriminate Hki; eauto.
      - inversion Hp; eauto. }
    destruct Hz as [z ->].
    destruct (assoc "precision" qs) as [v|] eqn:E.
    + destruct (Hintk "precision" _ v hp_ts_p) as (m & -> & Hm); [discriminate | discriminate | | exact E |].
      { intros kd d Hp; inversion Hp. }
      exists (TTimestamp (Some m) z). split.
      * destruct Hrange as (_ & Hr & _). specialize (Hr (or_intror eq_refl) _ E). cbn in Hr.
        cbn. rewrite andb_true_iff, !Z.leb_le; lia.
      * split; [reflexivity|]. intro k; cbn.
        destruct (String.eqb_spec k "precision") as [->|H1]; [exact E|].
        destruct (String.eqb_spec k "timezone") as [->|H2]; [exact Ez|].
        apply Hno; intros kd pr Hp'; inversion Hp'; congruence.
    + exists (TTimestamp None z). split; [reflexivity|]. split; [reflexivity|].
      intro k; cbn.
      destruct (String.eqb_spec k "timezone") as [->|H2]; [exact Ez|].
      destruct (String.eqb_spec k "precision") as [->|H1]; [exact E|].
      apply Hno; intros kd pr Hp'; inversion Hp'; congruence.
  - (* INTERVAL *)
    destruct Hrange as (_ & _ & _ & Hr). destruct (Hr eq_refl) as [[Ef Et]|[Ef Et]].
    + exists (TInterval YearToMonth). split; [reflexivity|]. split; [reflexivity|]. intro k; cbn.
      destruct (String.eqb_spec k "from_interval") as [->|H1]; [exact Ef|].
      destruct (String.eqb_spec k "to_interval") as [->|H2]; [exact Et|].
      apply Hno; intros kd pr Hp'; inversion Hp'; congruence.
    + exists (TInterval DayToSecond). split; [reflexivity|]. split; [reflexivity|]. intro k; cbn.
      destruct (String.eqb_spec k "from_interval") as [->|H1]; [exact Ef|].
      destruct (String.eqb_spec k "to_interval") as [->|H2]; [exact Et|].
      apply Hno; intros kd pr Hp'; inversion Hp'; congruence.
  - (* QDIGEST *)
    destruct (Hrq "dtype" KDT hp_qdigest) as (v & E & Hi).
    destruct (Hreq "dtype" KDT hp_qdigest) as [v' Ev'].
    assert (v' = v) as -> by (specialize (Hc "dtype"); rewrite Ev' in Hc; cbn in Hc; congruence).
    pose proof (Hkind _ _ _ _ Ev' hp_qdigest) as Hk. destruct v as [| | | |u|]; try discriminate Hk.
    destruct (IHdt _ _ Hi) as (t & Hw & Hr).
    exists (TQdigest t). split; [exact Hw|]. split; [reflexivity|]. exists u; split; [exact Hr|].
    intro k; cbn. destruct (String.eqb_spec k "dtype") as [->|H1]; [exact E|].
    apply Hno; intros kd pr Hp'; inversion Hp'; congruence.
  - (* ARRAY *)
    destruct (Hrq "dtype" KDT hp_array) as (v & E & Hi).
    destruct (Hreq "dtype" KDT hp_array) as [v' Ev'].
    assert (v' = v) as -> by (specialize (Hc "dtype"); rewrite Ev' in Hc; cbn in Hc; congruence).
    pose proof (Hkind _ _ _ _ Ev' hp_array) as Hk. destruct v as [| | | |u|]; try discriminate Hk.
    destruct (IHdt _ _ Hi) as (t & Hw & Hr).
    exists (TArray t). split; [exact Hw|]. split; [reflexivity|]. exists u; split; [exact Hr|].
    intro k; cbn. destruct (String.eqb_spec k "dtype") as [->|H1]; [exact E|].
    apply Hno; intros kd pr Hp'; inversion Hp'; congruence.
  - (* MAP *)
    destruct (Hrq "from_dtype" KDT hp_map_k) as (v & E & Hi).
    destruct (Hreq "from_dtype" KDT hp_map_k) as [v' Ev'].
    assert (v' = v) as -> by (specialize (Hc "from_dtype"); rewrite Ev' in Hc; cbn in Hc; congruence).
    pose proof (Hkind _ _ _ _ Ev' hp_map_k) as Hk. destruct v as [| | | |u|]; try discriminate Hk.
    destruct (IHdt _ _ Hi) as (t & Hw & Hr).
    destruct (Hrq "to_dtype" KDT hp_map_v) as (x & E2 & Hi2).
    destruct (Hreq "to_dtype" KDT hp_map_v) as [x' Ex'].
    assert (x' = x) as -> by (specialize (Hc "to_dtype"); rewrite Ex' in Hc; cbn in Hc; congruence).
    pose proof (Hkind _ _ _ _ Ex' hp_map_v) as Hk2. destruct x as [| | | |u2|]; try discriminate Hk2.
    destruct (IHdt _ _ Hi2) as (t2 & Hw2 & Hr2).
    exists (TMap t t2). split; [cbn; rewrite Hw, Hw2; reflexivity|]. split; [reflexivity|].
    exists u, u2; split; [exact Hr|]. split; [exact Hr2|].
    intro k; cbn. destruct (String.eqb_spec k "from_dtype") as [->|H1]; [exact E|].
    destruct (String.eqb_spec k "to_dtype") as [->|H2]; [exact E2|].
    apply Hno; intros kd pr Hp'; inversion Hp'; congruence.
  - (* ROW *)
    destruct Hrange as (_ & _ & Hr & _). destruct (Hr eq_refl) as (l & El & Hall).
    destruct (Hgiven _ _ El) as [[Hi _]|[kd Hp]]; [|inversion Hp].
    specialize (Hne _ _ Hi).
    assert (IHl : forall t, In (PDT t) l -> exists t0, wf_type t0 = true /\ reps t t0)
      by (intros; eapply IHlist; eassumption).
    clear IHlist; rename IHl into IHlist.
    assert (Hls : exists us ts, l = map PDT us /\ Forall2 reps us ts /\ forallb wf_type ts = true).
    { clear - Hall IHlist. induction l as [|x l IHl].
      - exists [], []; repeat split; constructor.
      - destruct IHl as (us & ts & -> & Hus & Hw).
        { intros y Hy; apply Hall; now right. }
        { intros t Ht; apply IHlist; now right. }
        destruct (Hall x (or_introl eq_refl)) as [u ->].
        destruct (IHlist u (or_introl eq_refl)) as (t & Hwt & Hrt).
        exists (u :: us), (t :: ts). repeat split; [constructor; auto | cbn; now rewrite Hwt, Hw]. }
    destruct Hls as (us & ts & -> & Hus & Hw).
    exists (TRow ts). split.
    + cbn. rewrite Hw. destruct ts; [|reflexivity]. inversion Hus; subst. cbn in Hne; congruence.
    + apply reps_row. split; [reflexivity|]. exists us; split; [exact Hus|]. cbn [rparams].
      intro k; cbn. destruct (String.eqb_spec k "dtypes") as [->|H1]; [exact El|].
      apply Hno; intros kd pr Hp'; inversion Hp'; congruence.
  - destruct Hin.
Qed.

(** The converse: each printable canonical type is the reading of a built object. *)
Lemma built_raw_of t : wf_type t = true -> built (raw_of t).
Proof.
  induction t as [s|p s|[m|]|m|[p|] z|[p|] z|k|t IH|k v IHk IHv|l IH|t IH] using dtype_ind'; intro Hw;
    pose proof (mk_raw _ (constructible_top _ (wf_constructible _ Hw))) as Hmk;
    (eapply built_mk; [exact Hmk | | | | | ]); cbn [raw_of rparams] in *; cbn [wf_type] in Hw;
    cbn [opt_int app] in *;
    try (intros ? ? ? Hx _; cbn in Hx;
         repeat match type of Hx with _ \/ _ => destruct Hx as [Hx|Hx] end;
         try contradiction; discriminate Hx);
    try (intros ? ? Hx; cbn in Hx;
         repeat match type of Hx with _ \/ _ => destruct Hx as [Hx|Hx] end;
         try contradiction; discriminate Hx).
  - intros k' z Hx; cbn in Hx. rewrite !andb_true_iff, !Z.leb_le in Hw.
    destruct Hx as [Hx|[Hx|[]]]; injection Hx as _ <-; lia.
  - intros k' z Hx; cbn in Hx, Hw. rewrite Z.leb_le in Hw.
    destruct Hx as [Hx|[]]; injection Hx as _ <-; lia.
  - intros k' z Hx; cbn in Hx. rewrite Z.leb_le in Hw.
    destruct Hx as [Hx|[]]; injection Hx as _ <-; lia.
  - intros k' z' Hx; cbn in Hx, Hw. rewrite !andb_true_iff, !Z.leb_le in Hw.
    destruct Hx as [Hx|[Hx|[]]]; try discriminate; injection Hx as _ <-; lia.
  - intros k' b Hx; cbn in Hx. destruct Hx as [Hx|[Hx|[]]]; congruence.
  - intros k' b Hx; cbn in Hx. destruct Hx as [Hx|[]]; congruence.
  - intros k' z' Hx; cbn in Hx, Hw. rewrite !andb_true_iff, !Z.leb_le in Hw.
    destruct Hx as [Hx|[Hx|[]]]; try discriminate; injection Hx as _ <-; lia.
  - intros k' b Hx; cbn in Hx. destruct Hx as [Hx|[Hx|[]]]; congruence.
  - intros k' b Hx; cbn in Hx. destruct Hx as [Hx|[]]; congruence.
  - intros k' u Hx; cbn in Hx. destruct Hx as [Hx|[]]; injection Hx as _ <-; auto.
  - apply andb_true_iff in Hw; destruct Hw.
    intros k' u Hx; cbn in Hx. destruct Hx as [Hx|[Hx|[]]]; injection Hx as _ <-; auto.
  - intros k' m Hx; cbn in Hx. destruct Hx as [Hx|[]]; injection Hx as _ <-.
    apply andb_true_iff in Hw; destruct Hw as [Hne Hw].
    destruct l; [discriminate | intro E; discriminate E].
  - intros k' m u Hx; cbn in Hx. destruct Hx as [Hx|[]]; injection Hx as _ <-.
    apply andb_true_iff in Hw; destruct Hw as [Hne Hw].
    intro Hu. apply in_map_iff in Hu. destruct Hu as (x & E & Hx). injection E as <-.
      rewrite Forall_forall in IH. rewrite forallb_forall in Hw. auto.
  - intros k' u Hx; cbn in Hx. destruct Hx as [Hx|[]]; injection Hx as _ <-; auto.
Qed.

(** C02 for objects: parsing the text of a built object gives an equal object. *)
Lemma object_round_trip r :
  built r ->
  exists s r', raw_sql r = Ok s /\ type_from_sql s = Ok r' /\ same r' r.
Proof.
  intro B. destruct (built_reps r B) as (t & Hw & Hr).
  exists (type_sql t), (raw_of t). split; [now apply raw_sql_reps|].
  split; [now apply type_round_trip|]. eapply reps_same; [apply reps_raw_of | exact Hr].
Qed.
(** C03 for objects. *)
Lemma object_text_inj a b :
  built a -> built b -> raw_sql a = raw_sql b -> same a b.
Proof.
  intros Ba Bb E. destruct (built_reps a Ba) as (ta & Ha & Ra), (built_reps b Bb) as (tb & Hb & Rb).
  rewrite (raw_sql_reps _ _ Ra), (raw_sql_reps _ _ Rb) in E. injection E as E.
  apply type_sql_inj in E; [|assumption|assumption]. subst. eapply reps_same; eassumption.
Qed.
