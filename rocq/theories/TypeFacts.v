(** Facts about data types: induction, equality, the constructor (C01). *)
From Coq Require Import String Ascii List ZArith Bool Lia.
From Verif Require Import PyStr StrFacts Types.
Import ListNotations.
Open Scope string_scope.

(** * Induction over nested types *)
Definition dtype_ind' (P : dtype -> Prop)
  (Hs : forall s, P (TSimple s))
  (Hd : forall p s, P (TDecimal p s))
  (Hv : forall m, P (TVarchar m))
  (Hc : forall m, P (TChar m))
  (Ht : forall p z, P (TTime p z))
  (Hts : forall p z, P (TTimestamp p z))
  (Hi : forall k, P (TInterval k))
  (Ha : forall t, P t -> P (TArray t))
  (Hm : forall k v, P k -> P v -> P (TMap k v))
  (Hr : forall l, Forall P l -> P (TRow l))
  (Hq : forall t, P t -> P (TQdigest t)) : forall t, P t :=
  fix rec (t : dtype) : P t :=
    match t with
    | TSimple s => Hs s | TDecimal p s => Hd p s | TVarchar m => Hv m | TChar m => Hc m
    | TTime p z => Ht p z | TTimestamp p z => Hts p z | TInterval k => Hi k
    | TArray t => Ha t (rec t)
    | TMap k v => Hm k v (rec k) (rec v)
    | TRow l => Hr l ((fix go l : Forall P l :=
                         match l with
                         | [] => Forall_nil _
                         | x :: r => Forall_cons _ (rec x) (go r)
                         end) l)
    | TQdigest t => Hq t (rec t)
    end.

Lemma simple_name_inj a b : simple_name a = simple_name b -> a = b.
Proof. destruct a, b; cbn; intro H; (reflexivity || discriminate). Qed.
Lemma simple_eqb_eq a b : simple_eqb a b = true <-> a = b.
Proof.
  unfold simple_eqb; rewrite String.eqb_eq; split; [apply simple_name_inj | now intros ->].
Qed.
Lemma iv_eqb_eq a b : iv_eqb a b = true <-> a = b.
Proof. destruct a, b; cbn; split; intro H; (reflexivity || discriminate). Qed.
Lemma optZ_eqb_eq a b : optZ_eqb a b = true <-> a = b.
Proof.
  destruct a, b; cbn; try rewrite Z.eqb_eq; split; intro H; try discriminate; try congruence.
Qed.

Lemma dtype_eqb_eq a b : dtype_eqb a b = true <-> a = b.
Proof.
  revert b; induction a as [s|p s|m|m|p z|p z|k|t IH|k v IHk IHv|l IH|t IH] using dtype_ind';
    intro b; destruct b; cbn [dtype_eqb]; try (split; [discriminate | intro H; discriminate H]).
  - rewrite simple_eqb_eq; split; congruence.
  - rewrite andb_true_iff, !Z.eqb_eq; split; [intros [-> ->]; reflexivity | intro H; injection H; auto].
  - rewrite optZ_eqb_eq; split; congruence.
  - rewrite Z.eqb_eq; split; congruence.
  - rewrite andb_true_iff, optZ_eqb_eq, eqb_true_iff; split; [intros [-> ->]; reflexivity | intro H; injection H; auto].
  - rewrite andb_true_iff, optZ_eqb_eq, eqb_true_iff; split; [intros [-> ->]; reflexivity | intro H; injection H; auto].
  - rewrite iv_eqb_eq; split; congruence.
  - rewrite IH; split; congruence.
  - rewrite andb_true_iff, IHk, IHv; split; [intros [-> ->]; reflexivity | intro H; injection H; auto].
  - match goal with |- context [TRow l = TRow ?l2] => rename l2 into l' end.
    revert l'; induction IH as [|x r Hx Hr IHr]; intros [|y r'].
    + split; reflexivity.
    + split; [discriminate | intro H; discriminate H].
    + split; [discriminate | intro H; discriminate H].
    + rewrite andb_true_iff, Hx, IHr. split.
      * intros [-> H]; injection H as ->; reflexivity.
      * intro H; injection H as -> ->; auto.
  - rewrite IH; split; congruence.
Qed.
Lemma dtype_eqb_refl a : dtype_eqb a a = true.
Proof. now apply dtype_eqb_eq. Qed.
Lemma dtype_eqb_sym a b : dtype_eqb a b = dtype_eqb b a.
Proof.
  apply Bool.eq_iff_eq_true; rewrite !dtype_eqb_eq; split; congruence.
Qed.
Lemma dtype_eqb_neq a b : dtype_eqb a b = false <-> a <> b.
Proof.
  rewrite <- not_true_iff_false, dtype_eqb_eq; reflexivity.
Qed.

Lemma type_name_allowed t : mem (type_name t) allowed_types = true.
Proof. destruct t as [s| | | | | | | | | |]; try reflexivity. destruct s; reflexivity. Qed.

(** * The constructor *)

Lemma assoc_app {A} k (l r : list (string * A)) :
  assoc k (l ++ r)%list = match assoc k l with Some v => Some v | None => assoc k r end.
Proof.
  induction l as [|[k' a] l IH]; cbn; [reflexivity|].
  destruct (String.eqb k k'); [reflexivity | exact IH].
Qed.
Lemma assoc_In {A} k (l : list (string * A)) v : assoc k l = Some v -> In (k, v) l.
Proof.
  induction l as [|[k' a] l IH]; cbn; [discriminate|].
  destruct (String.eqb_spec k k') as [->|_].
  - intro H; injection H as ->; now left.
  - intro H; right; auto.
Qed.
Lemma In_assoc {A} k (l : list (string * A)) v : In (k, v) l -> exists v', assoc k l = Some v'.
Proof.
  induction l as [|[k' a] l IH]; cbn; [tauto|].
  destruct (String.eqb_spec k k') as [->|Hne]; [eauto|].
  intros [H|H]; [injection H as -> _; congruence | auto].
Qed.
Lemma mem_In s l : mem s l = true <-> In s l.
Proof.
  unfold mem; rewrite existsb_exists; split.
  - intros (x & Hx & E). apply String.eqb_eq in E; now subst.
  - intro H; exists s; split; [exact H | apply String.eqb_refl].
Qed.

(** The parameters that the loop adds. *)
Definition default_of (fs : list tparam) (k : string) : option pval :=
  match find (fun f => String.eqb k (pname f)) fs with
  | Some f => if prequired f then None else pdefault f
  | None => None
  end.

Definition field_ok (f : tparam) (ps : list (string * pval)) : bool :=
  match assoc (pname f) ps with
  | None => negb (prequired f)
  | Some v => isinstance v (pkind_of f)
  end.

Definition good_default (f : tparam) : bool :=
  match pdefault f with None => true | Some d => isinstance d (pkind_of f) end.

Lemma check_fields_spec fs : forall ps,
  NoDup (map pname fs) -> forallb good_default fs = true ->
  match check_fields fs ps with
  | Ok ps' =>
      forallb (fun f => field_ok f ps) fs = true
      /\ (forall k, assoc k ps' = match assoc k ps with Some v => Some v | None => default_of fs k end)
      /\ (forall kv, In kv ps' -> In kv ps \/ In (fst kv) (map pname fs))
      /\ (forall kv, In kv ps -> In kv ps')
      /\ (fs = [] -> ps' = ps)
  | Err e => e = AssertionError /\ forallb (fun f => field_ok f ps) fs = false
  end.
Proof.
  induction fs as [|f fs IH]; intros ps Hnd Hg.
  { cbn. repeat split; auto. intro k; destruct (assoc k ps); reflexivity. }
  cbn in Hnd; apply NoDup_cons_iff in Hnd; destruct Hnd as [Hni Hnd].
  cbn in Hg; apply andb_true_iff in Hg; destruct Hg as [Hgf Hg].
  assert (Hfresh : forall ps' : list (string * pval),
     (forall k, k <> pname f -> assoc k ps' = assoc k ps) ->
     forallb (fun g => field_ok g ps') fs = forallb (fun g => field_ok g ps) fs).
  { intros ps' He. clear - He Hni. induction fs as [|g fs IH]; [reflexivity|].
    cbn [forallb]. rewrite IH by (intro H; apply Hni; now right).
    f_equal. unfold field_ok. rewrite He; [reflexivity|].
    intro E; apply Hni; left; auto. }
  cbn [check_fields forallb]. unfold check_field.
  destruct (assoc (pname f) ps) as [v|] eqn:Ea.
  - unfold field_ok at 1; rewrite Ea.
    destruct (isinstance v (pkind_of f)) eqn:Ei; cbn [py_assert bind].
    + specialize (IH ps Hnd Hg). destruct (check_fields fs ps) as [ps'|e].
      * destruct IH as (H1 & H2 & H3 & H4 & _).
        replace (field_ok f ps) with true by (unfold field_ok; now rewrite Ea, Ei).
        rewrite H1. repeat split; auto.
        -- intro k; rewrite H2. destruct (assoc k ps) as [w|] eqn:Ek; [reflexivity|].
           unfold default_of; cbn [find]. destruct (String.eqb_spec k (pname f)) as [->|_].
           ++ congruence.
           ++ reflexivity.
        -- intros kv Hin. destruct (H3 _ Hin); [now left | right; now right].
        -- discriminate.
      * destruct IH as [-> IH]. rewrite IH, andb_false_r; auto.
    + split; [reflexivity|]. unfold field_ok; rewrite Ea, Ei; reflexivity.
  - destruct (prequired f) eqn:Er.
    + split; [reflexivity|]. unfold field_ok; rewrite Ea, Er; reflexivity.
    + assert (Hf : field_ok f ps = true) by (unfold field_ok; rewrite Ea, Er; reflexivity).
      rewrite Hf; cbn [andb].
      unfold good_default in Hgf.
      destruct (pdefault f) as [d|] eqn:Ed; cbn [bind].
      * rewrite Hgf; cbn [py_assert bind].
        specialize (IH (ps ++ [(pname f, d)])%list Hnd Hg).
        rewrite Hfresh in IH.
        2:{ intros k Hk. rewrite assoc_app. destruct (assoc k ps); [reflexivity|].
            cbn. destruct (String.eqb_spec k (pname f)); congruence. }
        destruct (check_fields fs (ps ++ [(pname f, d)])%list) as [ps'|e].
        -- destruct IH as (H1 & H2 & H3 & H4 & _). repeat split; auto.
           ++ intro k; rewrite H2, assoc_app. cbn [assoc].
              unfold default_of at 2; cbn [find].
              destruct (assoc k ps) as [w|] eqn:Ek; [reflexivity|].
              destruct (String.eqb_spec k (pname f)) as [->|Hk].
              ** now rewrite Er, Ed.
              ** reflexivity.
           ++ intros kv Hin. destruct (H3 _ Hin) as [H|H].
              ** apply in_app_or in H; destruct H as [H|[<-|[]]]; [now left | right; now left].
              ** right; now right.
           ++ intros kv Hin; apply H4, in_or_app; now left.
           ++ discriminate.
        -- exact IH.
      * specialize (IH ps Hnd Hg). destruct (check_fields fs ps) as [ps'|e].
        -- destruct IH as (H1 & H2 & H3 & H4 & _). repeat split; auto.
           ++ intro k; rewrite H2. destruct (assoc k ps) as [w|] eqn:Ek; [reflexivity|].
              unfold default_of; cbn [find]. destruct (String.eqb_spec k (pname f)) as [->|Hk].
              ** rewrite Er, Ed. destruct (find _ fs) as [g|] eqn:Ef; [|reflexivity].
                 apply find_some in Ef; destruct Ef as [Hin He]. apply String.eqb_eq in He.
                 exfalso; apply Hni; rewrite He; now apply in_map.
              ** reflexivity.
           ++ intros kv Hin. destruct (H3 _ Hin); [now left | right; now right].
           ++ discriminate.
        -- exact IH.
Qed.

Lemma fields_good n : NoDup (map pname (fields n)) /\ forallb good_default (fields n) = true.
Proof.
  unfold fields.
  repeat match goal with |- context [if ?b then _ else _] => destruct b end;
    (split; [cbn; repeat constructor; cbn; intuition discriminate | reflexivity]).
Qed.

(** ** Declarative specification of the constructor *)

(** What may be given for a parameter. *)
Inductive presence := Required | Optional | Default (v : pval).

(** The parameters of each type (Trino types as documented in types.py 238-277). *)
Inductive has_param : string -> string -> pkind -> presence -> Prop :=
| hp_dec_p : has_param "DECIMAL" "precision" KInt (Default (PInt 38))
| hp_dec_s : has_param "DECIMAL" "scale" KInt (Default (PInt 0))
| hp_varchar : has_param "VARCHAR" "max_chars" KInt Optional
| hp_char : has_param "CHAR" "max_chars" KInt (Default (PInt 1))
| hp_time_p : has_param "TIME" "precision" KInt Optional
| hp_time_z : has_param "TIME" "timezone" KBool (Default (PBool false))
| hp_ts_p : has_param "TIMESTAMP" "precision" KInt Optional
| hp_ts_z : has_param "TIMESTAMP" "timezone" KBool (Default (PBool false))
| hp_array : has_param "ARRAY" "dtype" KDT Required
| hp_map_k : has_param "MAP" "from_dtype" KDT Required
| hp_map_v : has_param "MAP" "to_dtype" KDT Required
| hp_row : has_param "ROW" "dtypes" KList Required
| hp_iv_f : has_param "INTERVAL" "from_interval" KStr Required
| hp_iv_t : has_param "INTERVAL" "to_interval" KStr Required
| hp_qdigest : has_param "QDIGEST" "dtype" KDT Required.

(** An [int] (or [bool]) between the bounds. *)
Definition int_between (lo hi : Z) (v : pval) : Prop :=
  match v with
  | PInt z => (lo <= z <= hi)%Z
  | PBool b => (lo <= (if b then 1 else 0) <= hi)%Z
  | _ => False
  end.

(** The range check of each type on its complete parameters. *)
Definition range_ok (name : string) (param : string -> option pval) : Prop :=
  (name = "DECIMAL" -> exists v, param "precision" = Some v /\ int_between 0 38 v)
  /\ (name = "TIME" \/ name = "TIMESTAMP" ->
      forall v, param "precision" = Some v -> int_between 0 12 v)
  /\ (name = "ROW" ->
      exists l, param "dtypes" = Some (PList l) /\ forall x, In x l -> exists t, x = PDT t)
  /\ (name = "INTERVAL" ->
      (param "from_interval" = Some (PStr "YEAR") /\ param "to_interval" = Some (PStr "MONTH"))
      \/ (param "from_interval" = Some (PStr "DAY") /\ param "to_interval" = Some (PStr "SECOND"))).

(** The complete parameters: those given, else the default. *)
Definition completed (name : string) (ps : list (string * pval)) (param : string -> option pval)
  : Prop :=
  forall k,
    match assoc k ps with
    | Some v => param k = Some v
    | None =>
        (forall kd d, has_param name k kd (Default d) -> param k = Some d)
        /\ ((forall kd d, ~ has_param name k kd (Default d)) -> param k = None)
    end.

Definition valid_args (name : string) (ps : list (string * pval)) : Prop :=
  In name allowed_types
  /\ (forall k v, In (k, v) ps -> exists kd pr, has_param name k kd pr)
  /\ (forall k kd pr v, assoc k ps = Some v -> has_param name k kd pr -> isinstance v kd = true)
  /\ (forall k kd, has_param name k kd Required -> exists v, assoc k ps = Some v)
  /\ (forall param, completed name ps param -> range_ok name param).

Definition presence_of (f : tparam) : presence :=
  if prequired f then Required
  else match pdefault f with None => Optional | Some d => Default d end.

Lemma has_param_fields n k kd pr :
  has_param n k kd pr <->
  exists f, In f (fields n) /\ pname f = k /\ pkind_of f = kd /\ presence_of f = pr.
Proof.
  split.
  - intros []; cbn;
      first [ eexists; split; [left; reflexivity | repeat split; reflexivity]
            | eexists; split; [right; left; reflexivity | repeat split; reflexivity] ].
  - intros (f & Hin & <- & <- & <-). revert Hin. unfold fields.
    destruct (String.eqb_spec n "DECIMAL") as [->|_];
      [intros [<-|[<-|[]]]; cbn; constructor|].
    destruct (String.eqb_spec n "VARCHAR") as [->|_]; [intros [<-|[]]; cbn; constructor|].
    destruct (String.eqb_spec n "CHAR") as [->|_]; [intros [<-|[]]; cbn; constructor|].
    destruct (String.eqb_spec n "TIME") as [->|_];
      [intros [<-|[<-|[]]]; cbn; constructor|].
    destruct (String.eqb_spec n "TIMESTAMP") as [->|_];
      [intros [<-|[<-|[]]]; cbn; constructor|].
    cbn [orb].
    destruct (String.eqb_spec n "ARRAY") as [->|_]; [intros [<-|[]]; cbn; constructor|].
    destruct (String.eqb_spec n "MAP") as [->|_];
      [intros [<-|[<-|[]]]; cbn; constructor|].
    destruct (String.eqb_spec n "ROW") as [->|_]; [intros [<-|[]]; cbn; constructor|].
    destruct (String.eqb_spec n "INTERVAL") as [->|_];
      [intros [<-|[<-|[]]]; cbn; constructor|].
    destruct (String.eqb_spec n "QDIGEST") as [->|_]; [intros [<-|[]]; cbn; constructor|].
    intros [].
Qed.

Lemma find_field n k f :
  In f (fields n) -> pname f = k ->
  find (fun f => String.eqb k (pname f)) (fields n) = Some f.
Proof.
  intros Hin <-. destruct (fields_good n) as [Hnd _].
  induction (fields n) as [|g fs IH]; [destruct Hin|].
  cbn in Hnd; apply NoDup_cons_iff in Hnd; destruct Hnd as [Hni Hnd].
  cbn [find]. destruct (String.eqb_spec (pname f) (pname g)) as [E|E].
  - destruct Hin as [->|Hin]; [reflexivity|].
    exfalso; apply Hni; rewrite <- E; now apply in_map.
  - destruct Hin as [->|Hin]; [congruence | auto].
Qed.

Lemma default_of_spec n k :
  (forall kd d, has_param n k kd (Default d) -> default_of (fields n) k = Some d)
  /\ ((forall kd d, ~ has_param n k kd (Default d)) -> default_of (fields n) k = None).
Proof.
  split.
  - intros kd d H. apply has_param_fields in H. destruct H as (f & Hin & Hk & Hkd & Hp).
    unfold default_of. rewrite (find_field _ _ _ Hin Hk).
    unfold presence_of in Hp. destruct (prequired f); [discriminate|].
    destruct (pdefault f); congruence.
  - intro H. unfold default_of. destruct (find _ (fields n)) as [f|] eqn:E; [|reflexivity].
    apply find_some in E; destruct E as [Hin E]. apply String.eqb_eq in E.
    destruct (prequired f) eqn:Er; [reflexivity|].
    destruct (pdefault f) as [d|] eqn:Ed; [|reflexivity].
    exfalso; apply (H (pkind_of f) d). apply has_param_fields. exists f.
    unfold presence_of; rewrite Er, Ed; auto.
Qed.

Definition completion (n : string) (ps : list (string * pval)) (k : string) : option pval :=
  match assoc k ps with Some v => Some v | None => default_of (fields n) k end.
Lemma completion_completed n ps : completed n ps (completion n ps).
Proof.
  intro k. unfold completion. destruct (assoc k ps); [reflexivity|]. apply default_of_spec.
Qed.
Lemma has_default_dec n k :
  (exists kd d, has_param n k kd (Default d)) \/ (forall kd d, ~ has_param n k kd (Default d)).
Proof.
  destruct (default_of (fields n) k) as [d|] eqn:E.
  - left. unfold default_of in E. destruct (find _ (fields n)) as [f|] eqn:Ef; [|discriminate].
    apply find_some in Ef; destruct Ef as [Hin Ek]. apply String.eqb_eq in Ek.
    destruct (prequired f) eqn:Er; [discriminate|].
    exists (pkind_of f), d. apply has_param_fields; exists f.
    unfold presence_of; rewrite Er, E; auto.
  - right. intros kd d H. apply (proj1 (default_of_spec n k)) in H; congruence.
Qed.
Lemma completed_unique n ps p1 p2 :
  completed n ps p1 -> completed n ps p2 -> forall k, p1 k = p2 k.
Proof.
  intros H1 H2 k. specialize (H1 k); specialize (H2 k).
  destruct (assoc k ps); [congruence|].
  destruct H1 as [H1 H1'], H2 as [H2 H2'].
  destruct (has_default_dec n k) as [(kd & d & H)|H].
  - rewrite (H1 _ _ H), (H2 _ _ H); reflexivity.
  - rewrite (H1' H), (H2' H); reflexivity.
Qed.
Lemma range_ok_ext n p1 p2 : (forall k, p1 k = p2 k) -> range_ok n p1 -> range_ok n p2.
Proof. unfold range_ok; intro E; rewrite <- !E; auto. Qed.

Lemma validate_spec n ps :
  In n allowed_types ->
  (forall kv, In kv ps -> In (fst kv) (map pname (fields n))) ->
  (forall f, In f (fields n) -> match assoc (pname f) ps with
                                | Some v => isinstance v (pkind_of f) = true
                                | None => presence_of f = Optional end) ->
  match validate n ps with
  | Ok _ => range_ok n (fun k => assoc k ps)
  | Err e => e = AssertionError /\ ~ range_ok n (fun k => assoc k ps)
  end.
Proof.
  intros Hn Hkeys Hf.
  assert (Hnp : forall m, In m allowed_types -> mem m nonparametric = true ->
            fields m = [] /\ range_ok m (fun k => assoc k ps)).
  { intros m Hm Hm'. apply mem_In in Hm'.
    split.
    - cbn in Hm'. repeat destruct Hm' as [<-|Hm']; try reflexivity. destruct Hm'.
    - unfold range_ok.
      cbn in Hm'. repeat destruct Hm' as [<-|Hm']; try (repeat split; (discriminate || intros [|]; discriminate)).
      destruct Hm'. }
  unfold validate.
  destruct (mem n nonparametric) eqn:En.
  { destruct (Hnp n Hn En) as [Hfs Hr]. rewrite Hfs in Hkeys.
    destruct ps as [|kv ps]; [exact Hr|]. destruct (Hkeys kv (or_introl eq_refl)). }
  assert (Hpar : In n ["DECIMAL"; "VARCHAR"; "CHAR"; "TIME"; "TIMESTAMP"; "INTERVAL"; "QDIGEST";
                       "ARRAY"; "MAP"; "ROW"]).
  { cbn in Hn. repeat (destruct Hn as [<-|Hn]; [first [discriminate En | cbn; tauto]|]). destruct Hn. }
  clear Hn En Hnp Hkeys.
  cbn in Hpar.
  destruct Hpar as [<-|[<-|[<-|[<-|[<-|[<-|[<-|[<-|[<-|[<-|[]]]]]]]]]]].
  - (* DECIMAL *)
    pose proof (Hf _ (or_introl eq_refl)) as Hp. cbn in Hp.
    cbn [String.eqb Ascii.eqb Bool.eqb orb]. unfold validate_decimal, get, range_ok.
    destruct (assoc "precision" ps) as [v|] eqn:Ea; [|discriminate].
    destruct v as [z|b| | | |]; try discriminate; cbn [bind int_of]; unfold py_assert.
    + destruct (andb _ _) eqn:E.
      * rewrite andb_true_iff, !Z.leb_le in E.
        repeat split; try discriminate; try (intros [|]; discriminate).
        intros _; eexists; split; [reflexivity|]. exact E.
      * split; [reflexivity|]. intros (H & _). destruct (H eq_refl) as (v & Hv & Hb).
        injection Hv as <-. cbn in Hb. rewrite andb_false_iff, !Z.leb_gt in E; lia.
    + destruct (andb _ _) eqn:E.
      * rewrite andb_true_iff, !Z.leb_le in E.
        repeat split; try discriminate; try (intros [|]; discriminate).
        intros _; eexists; split; [reflexivity|]. exact E.
      * split; [reflexivity|]. intros (H & _). destruct (H eq_refl) as (v & Hv & Hb).
        injection Hv as <-. cbn in Hb. rewrite andb_false_iff, !Z.leb_gt in E; lia.
  - cbn [String.eqb Ascii.eqb Bool.eqb orb]. unfold range_ok.
    repeat split; try discriminate; intros [|]; discriminate.
  - cbn [String.eqb Ascii.eqb Bool.eqb orb]. unfold range_ok.
    repeat split; try discriminate; intros [|]; discriminate.
  - (* TIME *)
    pose proof (Hf _ (or_introl eq_refl)) as Hp. cbn in Hp.
    cbn [String.eqb Ascii.eqb Bool.eqb orb]. unfold validate_timelike, range_ok.
    destruct (assoc "precision" ps) as [v|] eqn:Ea.
    2:{ repeat split; try discriminate. }
    destruct v as [z|b| | | |]; try discriminate; cbn [bind int_of]; unfold py_assert.
    + destruct (andb _ _) eqn:E.
      * rewrite andb_true_iff, !Z.leb_le in E.
        repeat split; try discriminate.
        intros _ v Hv; injection Hv as <-. exact E.
      * split; [reflexivity|]. intros (_ & H & _). specialize (H (or_introl eq_refl) _ eq_refl).
        cbn in H. rewrite andb_false_iff, !Z.leb_gt in E; lia.
    + destruct (andb _ _) eqn:E.
      * rewrite andb_true_iff, !Z.leb_le in E.
        repeat split; try discriminate.
        intros _ v Hv; injection Hv as <-. exact E.
      * split; [reflexivity|]. intros (_ & H & _). specialize (H (or_introl eq_refl) _ eq_refl).
        cbn in H. rewrite andb_false_iff, !Z.leb_gt in E; lia.
  - (* TIMESTAMP *)
    pose proof (Hf _ (or_introl eq_refl)) as Hp. cbn in Hp.
    cbn [String.eqb Ascii.eqb Bool.eqb orb]. unfold validate_timelike, range_ok.
    destruct (assoc "precision" ps) as [v|] eqn:Ea.
    2:{ repeat split; try discriminate. }
    destruct v as [z|b| | | |]; try discriminate; cbn [bind int_of]; unfold py_assert.
    + destruct (andb _ _) eqn:E.
      * rewrite andb_true_iff, !Z.leb_le in E.
        repeat split; try discriminate.
        intros _ v Hv; injection Hv as <-. exact E.
      * split; [reflexivity|]. intros (_ & H & _). specialize (H (or_intror eq_refl) _ eq_refl).
        cbn in H. rewrite andb_false_iff, !Z.leb_gt in E; lia.
    + destruct (andb _ _) eqn:E.
      * rewrite andb_true_iff, !Z.leb_le in E.
        repeat split; try discriminate.
        intros _ v Hv; injection Hv as <-. exact E.
      * split; [reflexivity|]. intros (_ & H & _). specialize (H (or_intror eq_refl) _ eq_refl).
        cbn in H. rewrite andb_false_iff, !Z.leb_gt in E; lia.
  - (* INTERVAL *)
    pose proof (Hf _ (or_introl eq_refl)) as Hp. cbn in Hp.
    pose proof (Hf _ (or_intror (or_introl eq_refl))) as Hq. cbn in Hq.
    cbn [String.eqb Ascii.eqb Bool.eqb orb]. unfold validate_interval, get, range_ok.
    destruct (assoc "from_interval" ps) as [v|] eqn:Ea; [|discriminate].
    destruct (assoc "to_interval" ps) as [w|] eqn:Eb; [|discriminate].
    destruct v as [| |f| | |]; try discriminate.
    destruct w as [| |g| | |]; try discriminate.
    cbn [bind]. unfold py_assert.
    destruct (String.eqb_spec f "YEAR") as [->|Hy]; cbn [orb bind].
    + destruct (String.eqb_spec g "MONTH") as [->|Hm].
      * repeat split; try discriminate; try (intros [|]; discriminate). auto.
      * split; [reflexivity|]. intros (_ & _ & _ & H).
        destruct (H eq_refl) as [[_ E]|[E _]]; congruence.
    + destruct (String.eqb_spec f "DAY") as [->|Hd]; cbn [bind].
      * destruct (String.eqb_spec g "SECOND") as [->|Hm].
        -- repeat split; try discriminate; try (intros [|]; discriminate). auto.
        -- split; [reflexivity|]. intros (_ & _ & _ & H).
           destruct (H eq_refl) as [[E _]|[_ E]]; congruence.
      * split; [reflexivity|]. intros (_ & _ & _ & H).
        destruct (H eq_refl) as [[E _]|[E _]]; congruence.
  - (* QDIGEST *)
    pose proof (Hf _ (or_introl eq_refl)) as Hp. cbn in Hp.
    cbn [String.eqb Ascii.eqb Bool.eqb orb]. unfold validate_single_dtype, get, range_ok.
    destruct (assoc "dtype" ps) as [v|] eqn:Ea; [|discriminate].
    destruct v; try discriminate. cbn.
    repeat split; try discriminate; intros [|]; discriminate.
  - (* ARRAY *)
    pose proof (Hf _ (or_introl eq_refl)) as Hp. cbn in Hp.
    cbn [String.eqb Ascii.eqb Bool.eqb orb]. unfold validate_single_dtype, get, range_ok.
    destruct (assoc "dtype" ps) as [v|] eqn:Ea; [|discriminate].
    destruct v; try discriminate. cbn.
    repeat split; try discriminate; intros [|]; discriminate.
  - (* MAP *)
    pose proof (Hf _ (or_introl eq_refl)) as Hp. cbn in Hp.
    pose proof (Hf _ (or_intror (or_introl eq_refl))) as Hq. cbn in Hq.
    cbn [String.eqb Ascii.eqb Bool.eqb orb]. unfold validate_map, get, range_ok.
    destruct (assoc "from_dtype" ps) as [v|] eqn:Ea; [|discriminate].
    destruct (assoc "to_dtype" ps) as [w|] eqn:Eb; [|discriminate].
    destruct v; try discriminate. destruct w; try discriminate. cbn.
    repeat split; try discriminate; intros [|]; discriminate.
  - (* ROW *)
    pose proof (Hf _ (or_introl eq_refl)) as Hp. cbn in Hp.
    cbn [String.eqb Ascii.eqb Bool.eqb orb]. unfold validate_row, get, range_ok.
    destruct (assoc "dtypes" ps) as [v|] eqn:Ea; [|discriminate].
    destruct v as [| | | | |l]; try discriminate. cbn [bind]. unfold py_assert.
    destruct (forallb (fun x => isinstance x KDT) l) eqn:E.
    + rewrite forallb_forall in E.
      repeat split; try discriminate; try (intros [|]; discriminate).
      intros _; exists l; split; [reflexivity|].
      intros x Hx; specialize (E x Hx). destruct x; try discriminate; eauto.
    + split; [reflexivity|]. intros (_ & _ & H & _).
      destruct (H eq_refl) as (l' & Hl & Hall). injection Hl as <-.
      rewrite <- not_true_iff_false in E; apply E. apply forallb_forall.
      intros x Hx; destruct (Hall x Hx) as [t ->]; reflexivity.
Qed.

(** C01: the constructor decides validity, raises AssertionError otherwise, and
    the object it builds is canonical. *)
Lemma mk_datatype_spec name ps :
  match mk_datatype name ps with
  | Ok r =>
      valid_args (upper name) ps /\ rname r = upper name
      /\ completed (upper name) ps (fun k => assoc k (rparams r))
      /\ (forall k v, In (k, v) (rparams r) -> exists kd pr, has_param (upper name) k kd pr)
  | Err e => e = AssertionError /\ ~ valid_args (upper name) ps
  end.
Proof.
  unfold mk_datatype. set (n := upper name). clearbody n; clear name.
  unfold py_assert at 1.
  destruct (mem n allowed_types) eqn:Ha; cbn [bind].
  2:{ split; [reflexivity|]. intros (H & _). apply mem_In in H; congruence. }
  apply mem_In in Ha.
  destruct (fields_good n) as [Hnd Hg].
  pose proof (check_fields_spec (fields n) ps Hnd Hg) as Hc.
  destruct (check_fields (fields n) ps) as [ps'|e].
  2:{ destruct Hc as [-> Hc]. split; [reflexivity|].
      intros (_ & _ & Hk & Hreq & _).
      rewrite <- not_true_iff_false in Hc; apply Hc. apply forallb_forall. intros f Hin.
      unfold field_ok. destruct (assoc (pname f) ps) as [v|] eqn:Ea.
      - eapply Hk; [exact Ea|]. apply has_param_fields; exists f; eauto.
      - destruct (prequired f) eqn:Er; [|reflexivity].
        destruct (Hreq (pname f) (pkind_of f)) as [v Hv]; [|congruence].
        apply has_param_fields; exists f. unfold presence_of; rewrite Er; auto. }
  destruct Hc as (Hfo & Has & Hkeys & Hkeep & _). cbn [bind].
  rewrite forallb_forall in Hfo.
  unfold py_assert at 1.
  destruct (forallb (fun kv => mem (fst kv) (map pname (fields n))) ps') eqn:Hk; cbn [bind].
  2:{ split; [reflexivity|]. intros (_ & Hkn & _).
      rewrite <- not_true_iff_false in Hk; apply Hk. apply forallb_forall.
      intros [k v] Hin; apply mem_In; cbn [fst].
      destruct (Hkeys _ Hin) as [H|H]; [|exact H].
      destruct (Hkn _ _ H) as (kd & pr & Hp). apply has_param_fields in Hp.
      destruct Hp as (f & Hf & <- & _). now apply in_map. }
  rewrite forallb_forall in Hk.
  assert (Hcomp : completed n ps (fun k => assoc k ps')).
  { intro k. rewrite Has. destruct (assoc k ps); [reflexivity | apply default_of_spec]. }
  pose proof (validate_spec n ps' Ha) as Hv.
  assert (H1 : forall kv, In kv ps' -> In (fst kv) (map pname (fields n))).
  { intros kv Hin; apply mem_In, Hk, Hin. }
  assert (H2 : forall f, In f (fields n) ->
     match assoc (pname f) ps' with
     | Some v => isinstance v (pkind_of f) = true
     | None => presence_of f = Optional end).
  { intros f Hin. rewrite Has. specialize (Hfo f Hin). unfold field_ok in Hfo.
    destruct (assoc (pname f) ps) as [v|]; [exact Hfo|].
    apply negb_true_iff in Hfo.
    unfold default_of; rewrite (find_field _ _ _ Hin eq_refl), Hfo.
    unfold presence_of; rewrite Hfo.
    rewrite forallb_forall in Hg. specialize (Hg f Hin). unfold good_default in Hg.
    destruct (pdefault f); [exact Hg | reflexivity]. }
  specialize (Hv H1 H2).
  assert (Hkd : forall k v, In (k, v) ps' -> exists kd pr, has_param n k kd pr).
  { intros k v Hin. apply H1 in Hin. cbn in Hin. apply in_map_iff in Hin.
    destruct Hin as (f & Hf & Hin). exists (pkind_of f), (presence_of f).
    apply has_param_fields; eauto. }
  destruct (validate n ps') as [[]|e]; cbn [bind].
  - split; [|split; [reflexivity | split; [exact Hcomp | exact Hkd]]].
    split; [exact Ha|]. split.
    { intros k v Hin. eapply Hkd, Hkeep, Hin. }
    split.
    { intros k kd pr v Hkv Hp. apply has_param_fields in Hp.
      destruct Hp as (f & Hin & <- & <- & _).
      specialize (Hfo f Hin). unfold field_ok in Hfo; now rewrite Hkv in Hfo. }
    split.
    { intros k kd Hp. apply has_param_fields in Hp. destruct Hp as (f & Hin & <- & _ & Hpr).
      specialize (Hfo f Hin). unfold field_ok in Hfo.
      destruct (assoc (pname f) ps) as [v|]; [eauto|].
      apply negb_true_iff in Hfo. unfold presence_of in Hpr. rewrite Hfo in Hpr.
      destruct (pdefault f); discriminate. }
    intros param Hparam. eapply range_ok_ext; [|exact Hv].
    intro k; eapply completed_unique; eassumption.
  - destruct Hv as [-> Hv]. split; [reflexivity|].
    intros (_ & _ & _ & _ & Hr). apply Hv, Hr, Hcomp.
Qed.

(** Parameter mappings that look alike give objects that look alike. *)
Lemma mk_datatype_order name ps1 ps2 :
  (forall k, assoc k ps1 = assoc k ps2) ->
  match mk_datatype name ps1, mk_datatype name ps2 with
  | Ok r1, Ok r2 => rname r1 = rname r2 /\ forall k, assoc k (rparams r1) = assoc k (rparams r2)
  | Err e1, Err e2 => e1 = e2
  | _, _ => False
  end.
Proof.
  intro E.
  pose proof (mk_datatype_spec name ps1) as H1. pose proof (mk_datatype_spec name ps2) as H2.
  assert (Hc : forall p, completed (upper name) ps1 p <-> completed (upper name) ps2 p).
  { intro p; unfold completed; split; intros H k; specialize (H k); now rewrite E in *. }
  assert (Hv : valid_args (upper name) ps1 <-> valid_args (upper name) ps2).
  { assert (Hin : forall q1 q2 : list (string * pval), (forall k, assoc k q1 = assoc k q2) ->
        forall k v, In (k, v) q1 -> exists v', In (k, v') q2).
    { intros q1 q2 Eq k v Hi. apply In_assoc in Hi. destruct Hi as [v' Hi].
      rewrite Eq in Hi. apply assoc_In in Hi; eauto. }
    unfold valid_args; split; intros (A & B & C & D & F); (split; [exact A|]); split.
    - intros k v Hi. destruct (Hin ps2 ps1 (fun k => eq_sym (E k)) _ _ Hi) as [v' Hi']; eauto.
    - split; [intros k kd pr v Hk; rewrite <- E in Hk; eauto|].
      split; [intros k kd Hk; destruct (D _ _ Hk) as [v Hd]; rewrite E in Hd; eauto|].
      intros p Hp; apply F, Hc, Hp.
    - intros k v Hi. destruct (Hin ps1 ps2 E _ _ Hi) as [v' Hi']; eauto.
    - split; [intros k kd pr v Hk; rewrite E in Hk; eauto|].
      split; [intros k kd Hk; destruct (D _ _ Hk) as [v Hd]; rewrite <- E in Hd; eauto|].
      intros p Hp; apply F, Hc, Hp. }
  destruct (mk_datatype name ps1) as [r1|e1], (mk_datatype name ps2) as [r2|e2].
  - destruct H1 as (_ & N1 & C1 & _), H2 as (_ & N2 & C2 & _). split; [congruence|].
    apply Hc in C1. intro k. exact (completed_unique _ _ _ _ C1 C2 k).
  - destruct H1, H2; tauto.
  - destruct H1, H2; tauto.
  - destruct H1, H2; congruence.
Qed.
