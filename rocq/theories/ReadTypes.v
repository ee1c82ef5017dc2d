(** Every data type that is read is one the constructor makes from well formed
    parts (for C58). *)
From Coq Require Import String Ascii List Bool Arith NArith ZArith Lia.
From Verif Require Import PyStr StrFacts Types Lexer LexFacts TypeParser TypeFacts TypeRoundTrip TypeObjects
  Tokens TextFacts ReadTokens.
Import ListNotations.
Open Scope nat_scope.
Open Scope string_scope.
Open Scope list_scope.

(** * Results of parsers *)
Definition gives {Lx : lexis} {A} (P : A -> Prop) (x : pres A) : Prop :=
  forall a r, x = Ok (a, r) -> P a /\ Forall tok_ok r.
Lemma gives_ok {Lx : lexis} {A} (P : A -> Prop) a r : P a -> Forall tok_ok r -> gives P (Ok (a, r)).
Proof. intros H F b s E. injection E as <- <-. auto. Qed.
Lemma gives_err {Lx : lexis} {A} (P : A -> Prop) e : gives P (Err e).
Proof. intros a r H. discriminate. Qed.
Lemma gives_bind {Lx : lexis} {A B} (Q : A -> Prop) (P : B -> Prop) x f :
  gives Q x -> (forall a r, Q a -> Forall tok_ok r -> gives P (f (a, r))) -> gives P (bind x f).
Proof.
  intros H K b s E. destruct x as [[a r]|e]; [|discriminate]. cbn [bind] in E.
  destruct (H a r eq_refl) as [Qa F]. exact (K a r Qa F b s E).
Qed.
Lemma gives_orelse {Lx : lexis} {A} (P : A -> Prop) x f : gives P x -> gives P (f tt) -> gives P (orelse x f).
Proof. intros H K a r E. destruct x as [[b s]|[]]; cbn [orelse] in E; try discriminate; auto. Qed.
Lemma gives_weaken {Lx : lexis} {A} (P Q : A -> Prop) x : gives P x -> (forall a, P a -> Q a) -> gives Q x.
Proof. intros H K a r E. destruct (H a r E). auto. Qed.
Lemma eat_kw_ok {Lx : lexis} k ts r : Forall tok_ok ts -> eat_kw k ts = Some r -> Forall tok_ok r.
Proof.
  intros F H. destruct F as [|t ts Ht F]; [discriminate|]. destruct t; cbn [eat_kw] in H; try discriminate.
  destruct (String.eqb k0 k); [|discriminate]. now injection H as <-.
Qed.
Lemma eat_sym_ok {Lx : lexis} k ts r : Forall tok_ok ts -> eat_sym k ts = Some r -> Forall tok_ok r.
Proof.
  intros F H. destruct F as [|t ts Ht F]; [discriminate|]. destruct t; cbn [eat_sym] in H; try discriminate.
  destruct (String.eqb s k); [|discriminate]. now injection H as <-.
Qed.
Notation reader P p := (forall ts, Forall tok_ok ts -> gives P (p ts)).
Lemma p_ident_gives {Lx : lexis} : reader id_ok p_ident.
Proof. intros ts F i r H. now apply (p_ident_ok ts). Qed.
Create HintDb gv.
#[global] Hint Resolve p_ident_gives : gv.
Ltac eat :=
  match goal with
  | |- context [eat_kw ?k ?ts] =>
      let E := fresh "E" in
      destruct (eat_kw k ts) eqn:E; [apply eat_kw_ok in E; [|assumption]|clear E]; cbn [need bind]
  | |- context [eat_sym ?k ?ts] =>
      let E := fresh "E" in
      destruct (eat_sym k ts) eqn:E; [apply eat_sym_ok in E; [|assumption]|clear E]; cbn [need bind]
  end.
Ltac gv1 :=
  match goal with
  | |- gives _ (Ok _) => apply gives_ok; [|solve [assumption]]
  | |- gives _ (Err _) => apply gives_err
  | |- gives _ (orelse _ _) => apply gives_orelse; cbn beta
  | |- gives _ (bind (need _) _) => eat
  | |- gives _ (match eat_kw _ _ with _ => _ end) => eat
  | |- gives _ (match eat_sym _ _ with _ => _ end) => eat
  | |- gives _ (bind _ _) =>
      eapply gives_bind; [solve [eauto with gv] | cbn beta; intros ? ? ? ?; cbn beta iota]
  | |- gives _ (if ?b then _ else _) => destruct b
  end.
Ltac gv := repeat gv1.

(** * Types *)
Definition read_type (r : rawdt) : Prop :=
  built r /\ forall d t, canon r = Some d -> reps r t -> d = t.

Lemma assoc_none k (ps : list (string * pval)) : assoc k ps = None -> ~ In k (map fst ps).
Proof.
  intros H I. apply in_map_iff in I as ([k' v] & <- & I). cbn [fst] in H.
  apply In_assoc in I as [v' I]. congruence.
Qed.
Lemma check_fields_nodup fs : forall ps qs,
  check_fields fs ps = Ok qs -> NoDup (map fst ps) -> NoDup (map fst qs).
Proof.
  induction fs as [|f fs IH]; intros ps qs H N; cbn [check_fields] in H; [now injection H as <-|].
  destruct (check_field f ps) as [ps'|] eqn:E; [|discriminate]. cbn [bind] in H.
  apply (IH _ _ H). unfold check_field in E.
  destruct (assoc (pname f) ps) as [v|] eqn:A.
  - destruct (isinstance v (pkind_of f)); [|discriminate]. now injection E as <-.
  - destruct (prequired f); [discriminate|]. destruct (pdefault f) as [d|]; [|now injection E as <-].
    destruct (isinstance d (pkind_of f)); [|discriminate]. injection E as <-.
    rewrite map_app. cbn [map fst]. apply NoDup_Add with (a := pname f) (l := map fst ps).
    + rewrite <- (app_nil_r (map fst ps)) at 1. apply Add_app.
    + split; [exact N|]. now apply assoc_none.
Qed.
Lemma mk_datatype_nodup name ps r : mk_datatype name ps = Ok r -> NoDup (map fst ps) -> NoDup (map fst (rparams r)).
Proof.
  unfold mk_datatype. intros H N.
  destruct (py_assert (mem (upper name) allowed_types)); [|discriminate]. cbn [bind] in H.
  destruct (check_fields (fields (upper name)) ps) as [qs|] eqn:E; [|discriminate]. cbn [bind] in H.
  destruct (py_assert _); [|discriminate]. cbn [bind] in H.
  destruct (validate _ _); [|discriminate]. cbn [bind] in H. injection H as <-.
  eapply check_fields_nodup; eassumption.
Qed.
Lemma like_one ps k v : NoDup (map fst ps) -> like ps [(k, v)] -> ps = [(k, v)].
Proof.
  intros N L. destruct ps as [|[k1 v1] ps].
  { specialize (L k). cbn [assoc] in L. rewrite String.eqb_refl in L. discriminate. }
  pose proof (L k1) as L1. cbn [assoc] in L1. rewrite String.eqb_refl in L1.
  destruct (String.eqb_spec k1 k) as [->|]; [|discriminate]. injection L1 as ->.
  destruct ps as [|[k2 v2] ps]; [reflexivity|].
  pose proof (L k2) as L2. cbn [assoc] in L2. cbn [map fst] in N. inversion N as [|x l N1 N2]; subst.
  destruct (String.eqb_spec k2 k) as [->|]; [exfalso; apply N1; now left|].
  rewrite String.eqb_refl in L2. discriminate.
Qed.
Lemma like_two ps k1 v1 k2 v2 : k1 <> k2 -> NoDup (map fst ps) -> like ps [(k1, v1); (k2, v2)] ->
  ps = [(k1, v1); (k2, v2)] \/ ps = [(k2, v2); (k1, v1)].
Proof.
  intros D N L.
  destruct ps as [|[a x] ps].
  { specialize (L k1). cbn [assoc] in L. rewrite String.eqb_refl in L. discriminate. }
  inversion N as [|? ? N1 N2]; subst. cbn [fst] in *.
  pose proof (L a) as La. cbn [assoc] in La. rewrite String.eqb_refl in La.
  assert (R : forall k v, (forall k', k' <> a -> assoc k' ps = assoc k' [(k, v)]) -> k <> a -> ps = [(k, v)]).
  { intros k v H Hk. apply like_one; [exact N2|]. intro k'. destruct (string_dec k' a) as [->|Ha]; [|now apply H].
    cbn [assoc]. destruct (String.eqb_spec a k) as [->|_]; [contradiction|].
    destruct (assoc a ps) eqn:Ea; [|reflexivity]. exfalso. apply N1. apply assoc_In in Ea.
    apply in_map_iff. exists (a, p). auto. }
  destruct (String.eqb_spec a k1) as [->|Ha].
  - injection La as ->. left. f_equal. apply R; [|congruence].
    intros k' Hk'. specialize (L k'). cbn [assoc] in *.
    destruct (String.eqb_spec k' k1) as [|_]; [congruence|]. exact L.
  - destruct (String.eqb_spec a k2) as [->|]; [|discriminate]. injection La as ->.
    right. f_equal. apply R; [|congruence].
    intros k' Hk'. specialize (L k'). cbn [assoc] in *.
    destruct (String.eqb_spec k' k2) as [|_]; [congruence|]. exact L.
Qed.

(** [canon] reads a parameter dict without repeated keys as [reps] does. *)
Lemma canon_reps name ps :
  NoDup (map fst ps) ->
  (forall k u, In (k, PDT u) ps -> forall d t, canon u = Some d -> reps u t -> d = t) ->
  (forall k l u, In (k, PList l) ps -> In (PDT u) l -> forall d t, canon u = Some d -> reps u t -> d = t) ->
  forall d t, canon (RDT name ps) = Some d -> reps (RDT name ps) t -> d = t.
Proof.
  intros N H1 H2 d t C R. pose proof (reps_name _ _ R) as E. cbn [rname] in E. subst name.
  destruct t as [s|p s|m|m|p z|p z|k|t|k v|l|t]; cbn [reps rname rparams] in R; destruct R as [_ R].
  - destruct s; cbn in C; congruence.
  - cbn in R. cbn [canon] in C.
    pose proof (R "precision") as R1. pose proof (R "scale") as R2. cbn in R1, R2.
    cbn in C. rewrite R1, R2 in C. congruence.
  - cbn in C. unfold opt_int_param in C. rewrite (R "max_chars") in C. destruct m; cbn in C; congruence.
  - cbn in C. rewrite (R "max_chars") in C. cbn in C; congruence.
  - cbn in C. unfold opt_int_param in C. rewrite (R "precision"), (R "timezone") in C.
    destruct p; cbn in C; congruence.
  - cbn in C. unfold opt_int_param in C. rewrite (R "precision"), (R "timezone") in C.
    destruct p; cbn in C; congruence.
  - cbn in C. rewrite (R "from_interval") in C. destruct k; cbn in C; congruence.
  - destruct R as (u & Ru & L). apply like_one in L; [|exact N]. subst ps. cbn in C.
    destruct (canon u) as [d'|] eqn:Eu; [|discriminate]. cbn in C. injection C as <-.
    f_equal. eapply H1; [now left|exact Eu|exact Ru].
  - destruct R as (uk & uv & Rk & Rv & L). apply like_two in L; [|discriminate|exact N].
    destruct L as [ -> | -> ]; cbn in C;
      (destruct (canon uk) as [dk|] eqn:Ek; destruct (canon uv) as [dv|] eqn:Ev; cbn in C; try discriminate);
      injection C as <-; f_equal; first [eapply H1; [now left|eassumption..] | eapply H1; [right; now left|eassumption..]].
  - destruct R as (us & Rl & L). apply like_one in L; [|exact N]. subst ps. cbn in C.
    assert (H : forall u, In u us -> forall d t, canon u = Some d -> reps u t -> d = t).
    { intros u Hu. eapply H2; [now left|]. now apply in_map. }
    clear H1 H2 N. destruct (_ (map PDT us)) as [ds|] eqn:Eg in C; [|discriminate]. cbn in C. injection C as <-. f_equal.
    revert ds l Eg Rl. induction us as [|u us IH]; intros ds l Eg Rl; destruct l as [|t l]; try contradiction.
    + cbn in Eg. congruence.
    + cbn [map] in Eg. destruct (canon u) as [d'|] eqn:Eu; [|discriminate].
      destruct (_ (map PDT us)) as [ds'|] eqn:Eg' in Eg; [|discriminate]. injection Eg as <-.
      destruct Rl as [Ru Rl]. f_equal.
      * apply (H u); [now left|assumption..].
      * apply IH; [|exact Eg'|exact Rl]. intros u' Hu'. apply H. now right.
  - destruct R as (u & Ru & L). apply like_one in L; [|exact N]. subst ps. cbn in C.
    destruct (canon u) as [d'|] eqn:Eu; [|discriminate]. cbn in C. injection C as <-.
    f_equal. eapply H1; [now left|exact Eu|exact Ru].
Qed.

Lemma check_fields_from fs : forall ps qs k v,
  check_fields fs ps = Ok qs -> In (k, v) qs -> In (k, v) ps \/ exists f, In f fs /\ pdefault f = Some v.
Proof.
  induction fs as [|f fs IH]; intros ps qs k v H I; cbn [check_fields] in H; [injection H as <-; now left|].
  destruct (check_field f ps) as [ps'|] eqn:E; [|discriminate]. cbn [bind] in H.
  destruct (IH _ _ _ _ H I) as [J|(g & G & D)]; [|right; exists g; split; [now right|exact D]].
  unfold check_field in E. destruct (assoc (pname f) ps) as [w|].
  - destruct (isinstance w (pkind_of f)); [|discriminate]. injection E as <-. now left.
  - destruct (prequired f); [discriminate|]. destruct (pdefault f) as [d|] eqn:D; [|injection E as <-; now left].
    destruct (isinstance d (pkind_of f)); [|discriminate]. injection E as <-.
    apply in_app_or in J as [J|[J|[]]]; [now left|]. injection J as <- <-. right. exists f. split; [now left|exact D].
Qed.
Lemma default_flat n f v : In f (fields n) -> pdefault f = Some v -> (exists z, v = PInt z) \/ (exists b, v = PBool b).
Proof.
  unfold fields. intros I D.
  repeat match type of I with In _ (if ?b then _ else _) => destruct b end;
    repeat (destruct I as [<-|I]; [cbn [pdefault] in D; try discriminate; injection D as <-; eauto|]); destruct I.
Qed.
Lemma mk_datatype_from name ps r k v : mk_datatype name ps = Ok r -> In (k, v) (rparams r) ->
  In (k, v) ps \/ (exists z, v = PInt z) \/ (exists b, v = PBool b).
Proof.
  unfold mk_datatype. intros H I.
  destruct (py_assert (mem (upper name) allowed_types)); [|discriminate]. cbn [bind] in H.
  destruct (check_fields (fields (upper name)) ps) as [qs|] eqn:E; [|discriminate]. cbn [bind] in H.
  destruct (py_assert _); [|discriminate]. cbn [bind] in H.
  destruct (validate _ _); [|discriminate]. cbn [bind] in H. injection H as <-. cbn [rparams] in I.
  destruct (check_fields_from _ _ _ _ _ E I) as [J|(f & F & D)]; [now left|right].
  eapply default_flat; eassumption.
Qed.

(** A parameter value that comes from a text. *)
Definition arg_ok (k : string) (v : pval) : Prop :=
  match v with
  | PInt z => (0 <= z)%Z
  | PBool _ => k = "timezone"
  | PDT u => read_type u
  | PList l => l <> [] /\ forall u, In (PDT u) l -> read_type u
  | _ => True
  end.
Lemma mk_read name ps r :
  mk_datatype name ps = Ok r -> NoDup (map fst ps) -> (forall k v, In (k, v) ps -> arg_ok k v) -> read_type r.
Proof.
  intros M N A. split.
  - apply (built_mk _ _ _ M).
    + intros k t I. apply (A _ _ I).
    + intros k l I. apply (A _ _ I).
    + intros k l t I J. now apply (proj2 (A _ _ I)).
    + intros k z I. apply (A _ _ I).
    + intros k b I. apply (A _ _ I).
  - destruct r as [n qs]. apply canon_reps.
    + exact (mk_datatype_nodup _ _ _ M N).
    + intros k u I. destruct (mk_datatype_from _ _ _ _ _ M I) as [J|[[z E]|[b E]]]; try discriminate.
      apply (A _ _ J).
    + intros k l u I J. destruct (mk_datatype_from _ _ _ _ _ M I) as [K|[[z E]|[b E]]]; try discriminate.
      now apply (proj2 (A _ _ K)).
Qed.

Definition ty_ok (t : ptype) : Prop := forall r, visit_type t = Ok r -> read_type r.
Definition tp_ok (p : ptparam) : Prop := forall v, visit_typeparam p = Ok v ->
  (exists z, v = PInt z /\ (0 <= z)%Z) \/ (exists u, v = PDT u /\ read_type u).
Definition rf_ok (f : prowfield) : Prop := forall r, visit_rowfield f = Ok r -> read_type r.

Lemma tp_arg p v k : tp_ok p -> visit_typeparam p = Ok v -> arg_ok k v.
Proof. intros H E. destruct (H v E) as [(z & -> & Z)|(u & -> & U)]; assumption. Qed.

Lemma row_ok fs : fs <> [] -> Forall rf_ok fs -> ty_ok (PTRow fs).
Proof.
  intros N F r H. cbn [visit_type] in H.
  match type of H with bind (?g fs) _ = _ => set (go := g) in H end.
  assert (G : forall fs l, Forall rf_ok fs -> go fs = Ok l ->
    List.length l = List.length fs /\ forall u, In (PDT u) l -> read_type u).
  { clear. intros fs. induction fs as [|f fs IH]; intros l F H.
    - cbn in H. injection H as <-. split; [reflexivity|]. intros u [].
    - inversion F as [|x y Hf F']; subst. cbn in H. destruct (visit_rowfield f) as [v|] eqn:E; [|discriminate].
      cbn [bind] in H. fold go in H. destruct (go fs) as [vs|] eqn:Es; [|discriminate]. cbn [bind] in H.
      injection H as <-. destruct (IH _ F' eq_refl) as [L U]. split; [cbn; now rewrite L|].
      intros u [I|I]; [injection I as <-; now apply Hf|now apply U]. }
  destruct (go fs) as [l|] eqn:E; [|discriminate]. cbn [bind] in H.
  destruct (G _ _ F E) as [L U]. apply (mk_read _ _ _ H).
  - constructor; [intros []|constructor].
  - intros k v [I|[]]. injection I as <- <-. split; [|exact U].
    intros ->. destruct fs; [contradiction|discriminate].
Qed.
Lemma generic_ok i ps : Forall tp_ok ps -> ty_ok (PTGeneric i ps).
Proof.
  intros F r H. cbn [visit_type] in H.
  match type of H with bind (?g ps) _ = _ => set (go := g) in H end.
  assert (G : forall ps l, Forall tp_ok ps -> go ps = Ok l -> Forall (fun v => forall k, arg_ok k v) l).
  { clear. intros ps. induction ps as [|f fs IH]; intros l F H.
    - cbn in H. injection H as <-. constructor.
    - inversion F as [|x y Hf F']; subst. cbn in H. destruct (visit_typeparam f) as [v|] eqn:E; [|discriminate].
      cbn [bind] in H. fold go in H. destruct (go fs) as [vs|] eqn:Es; [|discriminate]. cbn [bind] in H.
      injection H as <-. constructor; [intro k; eapply tp_arg; eassumption|]. now apply IH. }
  destruct (go ps) as [l|] eqn:E; [|discriminate]. cbn [bind] in H.
  specialize (G _ _ F E). destruct (visit_ident i) as [name|]; [|discriminate]. cbn [bind] in H.
  apply (mk_read _ _ _ H).
  - assert (S : forall fs vs k, In k (map fst (zip_params fs vs)) -> In k (map pname fs)).
    { clear. induction fs as [|f fs IH]; intros [|v vs] k; cbn; try tauto. intros [<-|I]; [now left|right; eapply IH; eassumption]. }
    assert (Z : forall fs vs, NoDup (map pname fs) -> NoDup (map fst (zip_params fs vs))).
    { clear - S. induction fs as [|f fs IH]; intros [|v vs] N; try (cbn; constructor); cbn [map] in N; inversion N; subst.
      - intro I. apply S in I. contradiction.
      - now apply IH. }
    apply Z. unfold fields.
    repeat match goal with |- NoDup (map _ (if ?b then _ else _)) => destruct b end;
      cbn [map pname]; repeat constructor; cbn; intuition discriminate.
  - assert (Z : forall fs vs k v, Forall (fun v => forall k, arg_ok k v) vs -> In (k, v) (zip_params fs vs) -> arg_ok k v).
    { clear. induction fs as [|f fs IH]; intros [|v vs] k w F I; try destruct I; inversion F; subst.
      - injection H as <- <-. auto.
      - eapply IH; eassumption. }
    intros k v I. eapply Z; eassumption.
Qed.
Lemma suffix_ok t size : ty_ok t -> ty_ok (PTArraySuffix t size).
Proof.
  intros T r H. cbn [visit_type] in H. destruct size; [discriminate|]. cbn [py_assert bind] in H.
  destruct (visit_type t) as [u|] eqn:E; [|discriminate]. cbn [bind] in H. apply (mk_read _ _ _ H).
  - constructor; [intros []|constructor].
  - intros k v [I|[]]. injection I as <- <-. now apply T.
Qed.
Lemma datetime_ok b p z : (forall q, p = Some q -> tp_ok q) -> ty_ok (PTDateTime b p z).
Proof.
  intros T r H. cbn [visit_type] in H. destruct p as [p|]; cbn [bind] in H.
  - destruct (visit_typeparam p) as [v|] eqn:E; [|discriminate]. cbn [bind] in H. apply (mk_read _ _ _ H).
    + cbn. repeat constructor; cbn; intuition discriminate.
    + intros k w [I|[I|[]]]; injection I as <- <-; [|reflexivity]. eapply tp_arg; [now apply T|exact E].
  - apply (mk_read _ _ _ H).
    + cbn. repeat constructor; cbn; intuition discriminate.
    + intros k w [I|[]]; injection I as <- <-; reflexivity.
Qed.
Lemma interval_ok f to : ty_ok (PTInterval f to).
Proof.
  intros r H. cbn [visit_type] in H. apply (mk_read _ _ _ H).
  - destruct to; cbn; repeat constructor; cbn; intuition discriminate.
  - intros k w I. destruct to; [destruct I as [I|[I|[]]]|destruct I as [I|[]]]; injection I as <- <-; exact Logic.I.
Qed.
Lemma double_ok : ty_ok PTDoublePrecision.
Proof. intros r H. cbn [visit_type] in H. apply (mk_read _ _ _ H); [constructor|intros k v []]. Qed.
Lemma legacy_array_ok t : ty_ok (PTLegacyArray t).
Proof. intros r H. discriminate. Qed.
Lemma legacy_map_ok k v : ty_ok (PTLegacyMap k v).
Proof. intros r H. discriminate. Qed.
Lemma int_ok t : tp_ok (PPInt t).
Proof. intros v H. injection H as <-. left. eexists. split; [reflexivity|lia]. Qed.
Lemma param_ok t : ty_ok t -> tp_ok (PPType t).
Proof.
  intros T v H. cbn [visit_typeparam] in H. destruct (visit_type t) as [u|] eqn:E; [|discriminate].
  injection H as <-. right. exists u. split; [reflexivity|now apply T].
Qed.
Lemma field_ok i t : ty_ok t -> rf_ok (PRowField i t).
Proof. intros T r H. cbn [visit_rowfield] in H. destruct i; [discriminate|]. cbn [py_assert bind] in H. now apply T. Qed.

Lemma p_interval_field_gives {Lx : lexis} : reader (fun _ => True) p_interval_field.
Proof.
  intros ts F. destruct F as [|t ts Ht F]; [apply gives_err|]. destruct t; cbn [p_interval_field]; try apply gives_err.
  gv. exact Logic.I.
Qed.
Lemma p_zone_gives {Lx : lexis} : reader (fun _ => True) p_zone.
Proof. intros ts F. unfold p_zone. gv; exact Logic.I. Qed.
#[global] Hint Resolve p_interval_field_gives p_zone_gives : gv.

Lemma p_type_suffix_gives {Lx : lexis} n : forall t ts, ty_ok t -> Forall tok_ok ts -> gives ty_ok (p_type_suffix n t ts).
Proof.
  induction n as [|n IH]; intros t ts T F; [apply gives_err|]. cbn [p_type_suffix].
  eat; [|now apply gives_ok]. eat; [|apply IH; [now apply suffix_ok|assumption]].
  destruct l0 as [|[] r2]; try apply gives_err. inversion E0; subst. gv.
  apply IH; [now apply suffix_ok|assumption].
Qed.
#[global] Hint Resolve p_type_suffix_gives : gv.

Lemma types_read {Lx : lexis} n :
  reader ty_ok (p_type n) /\ reader ty_ok (p_type_prim n) /\ reader ty_ok (p_generic n)
  /\ reader tp_ok (p_typeparam n) /\ reader (Forall tp_ok) (p_typeparams n)
  /\ reader rf_ok (p_rowfield n) /\ reader (fun l => l <> [] /\ Forall rf_ok l) (p_rowfields n).
Proof.
  induction n as [|n (IHt & IHp & IHg & IHa & IHas & IHf & IHfs)];
    [split; [|split; [|split; [|split; [|split; [|split]]]]]; intros ts F; apply gives_err|].
  split; [|split; [|split; [|split; [|split; [|split]]]]].
  - intros ts F. cbn [p_type]. gv. now apply p_type_suffix_gives.
  - intros ts F. cbn [p_type_prim]. cbn zeta. pose proof (IHg ts F) as G.
    destruct F as [|t r Ht F]; [exact G|]. destruct t; try exact G.
    destruct (String.eqb k "ROW").
    { gv; try exact G. now apply row_ok. }
    destruct (String.eqb k "INTERVAL").
    { pose proof (p_interval_field_gives r F) as H.
      destruct (p_interval_field r) as [[f r1]|e]; [|exact G].
      destruct (H _ _ eq_refl) as [_ F1]. gv; apply interval_ok. }
    destruct (String.eqb k "TIMESTAMP" || String.eqb k "TIME")%bool.
    { apply (gives_bind (fun p => forall q, p = Some q -> tp_ok q)).
      - gv; intros q Eq; [injection Eq as <-; assumption|discriminate].
      - intros p r1 P F1. cbn beta iota. gv. now apply datetime_ok. }
    destruct (String.eqb k "DOUBLE"). { gv; [apply double_ok|exact G]. }
    destruct (String.eqb k "ARRAY"). { gv; [apply legacy_array_ok|exact G]. }
    destruct (String.eqb k "MAP"). { gv; [apply legacy_map_ok|exact G]. }
    exact G.
  - intros ts F. cbn [p_generic]. gv; apply generic_ok; [assumption|constructor].
  - intros ts F. cbn [p_typeparam]. destruct F as [|t r Ht F]; [gv; now apply param_ok|].
    assert (F' : Forall tok_ok (t :: r)) by now constructor.
    destruct t; try (gv; now apply param_ok). apply gives_ok; [apply int_ok|assumption].
  - intros ts F. cbn [p_typeparams]. gv; repeat first [assumption | constructor].
  - intros ts F. cbn [p_rowfield]. gv; try now apply field_ok.
  - intros ts F. cbn [p_rowfields]. gv; (split; [discriminate|]); (constructor; [assumption|]); [apply H1|constructor].
Qed.
Lemma p_type_gives {Lx : lexis} n : reader ty_ok (p_type n).
Proof. apply types_read. Qed.
#[global] Hint Resolve p_type_gives : gv.

Lemma read_type_wf r d : read_type r -> canon r = Some d -> wf_type d = true.
Proof.
  intros [B C] E. destruct (built_reps r B) as (t & W & R). now rewrite (C d t E R).
Qed.
Lemma type_from_sql_read s r : type_from_sql s = Ok r -> read_type r.
Proof.
  unfold type_from_sql, p_standalone_type. intros H.
  destruct (p_type _ (lex s)) as [[t l]|] eqn:E; [|discriminate]. cbn [bind] in H.
  destruct l; [|discriminate]. cbn [bind] in H.
  destruct (p_type_gives _ _ (lex_ok s) _ _ E) as [T _]. now apply T.
Qed.
