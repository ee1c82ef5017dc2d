(** Proofs about conversions.py: order independence, idempotence, and that the
    exact numeric result type holds all operand values. *)
From Coq Require Import String Ascii List ZArith Bool Lia QArith Sorting.Permutation.
From Verif Require Import PyStr Types TypeFacts Conversions.
Import ListNotations.
Open Scope string_scope.
Open Scope Z_scope.

(** Same result, or both raise. *)
Definition agree {A} (x y : result A) : Prop :=
  match x, y with
  | Ok a, Ok b => a = b
  | Err _, Err _ => True
  | _, _ => False
  end.

Lemma agree_refl {A} (x : result A) : agree x x.
Proof. destruct x; cbn; auto. Qed.
Lemma agree_bind {A B} (x y : result A) (f : A -> result B) :
  agree x y -> agree (bind x f) (bind y f).
Proof. destruct x, y; cbn; intro H; try contradiction; subst; auto using agree_refl. Qed.
Lemma agree_bind2 {A B} (x y : result A) (f g : A -> result B) :
  agree x y -> (forall a, x = Ok a -> agree (f a) (g a)) -> agree (bind x f) (bind y g).
Proof. destruct x, y; cbn; intros H G; try contradiction; subst; auto. Qed.

(** The branches of [common_supertype] for different type names. *)
Definition common_diff (a b : dtype) : result dtype :=
  if is_in a numeric_types then common_numeric a b
  else if is_in a string_types then common_string a b
  else if is_in a hll_types then common_hll a b
  else if is_in a datetime_types then common_datetime a b
  else Err TypeError.

Definition dec_max (p1 s1 p2 s2 : Z) : result dtype :=
  decimal (Z.max (p1 - s1) (p2 - s2) + Z.max s1 s2) (Z.max s1 s2).
Lemma dec_max_sym p1 s1 p2 s2 : dec_max p1 s1 p2 s2 = dec_max p2 s2 p1 s1.
Proof. unfold dec_max; rewrite (Z.max_comm s1), (Z.max_comm (p1 - s1)); reflexivity. Qed.
Lemma common_decimal_sym a b : agree (common_decimal a b) (common_decimal b a).
Proof.
  destruct a, b; cbn [common_decimal agree]; auto. fold (dec_max precision scale precision0 scale0).
  fold (dec_max precision0 scale0 precision scale). rewrite dec_max_sym. apply agree_refl.
Qed.

Ltac split_simple a := destruct a as [[]| | [?|] | | | | | | | | ].

Lemma common_numeric_sym a b :
  same_name a b = false -> agree (common_numeric a b) (common_numeric b a).
Proof.
  split_simple a; split_simple b; intro H; try discriminate H; clear H;
    unfold common_numeric, common_integral, common_float, promote_integral_to_decimal; cbn;
    try exact I; try reflexivity;
    rewrite ?(Z.max_comm scale), ?(Z.max_comm (precision - scale)); apply agree_refl.
Qed.
Lemma common_string_sym a b : agree (common_string a b) (common_string b a).
Proof.
  split_simple a; split_simple b; unfold common_string; cbn -[Z.max]; try exact I; try reflexivity;
    rewrite Z.max_comm; reflexivity.
Qed.
Lemma common_diff_sym a b : same_name a b = false -> agree (common_diff a b) (common_diff b a).
Proof.
  intro H. pose proof (common_numeric_sym a b H) as Hn. pose proof (common_string_sym a b) as Hs.
  unfold common_diff.
  split_simple a; split_simple b; try discriminate H; cbn -[common_numeric common_string];
    try exact I; try reflexivity; try exact Hn; try exact Hs.
Qed.

Lemma same_name_sym a b : same_name a b = same_name b a.
Proof. apply String.eqb_sym. Qed.

Lemma common_supertype_eq a b :
  common_supertype a b =
  if same_name a b then
    if dtype_eqb a b then Ok a
    else let* _ := (if is_in a conversion_map_keys then common_same_type a b else Ok unknown) in
         Ok unknown
  else common_diff a b.
Proof.
  destruct a as [s| | | | | | | | |l|], b as [s'| | | | | | | | |l0|]; try reflexivity;
    try (destruct s; reflexivity); try (destruct s'; reflexivity).
Qed.

Lemma common_supertype_same a : common_supertype a a = Ok a.
Proof.
  rewrite common_supertype_eq. unfold same_name. rewrite String.eqb_refl, dtype_eqb_refl. reflexivity.
Qed.

Lemma common_row_list_sym l1 :
  (forall x, In x l1 -> forall y, agree (common_supertype x y) (common_supertype y x)) ->
  forall l2, agree (common_row_list l1 l2) (common_row_list l2 l1).
Proof.
  induction l1 as [|x l1 IH]; intros H l2; destruct l2 as [|y l2]; cbn [common_row_list]; try reflexivity.
  apply agree_bind2; [apply H; left; reflexivity|]. intros t _.
  apply agree_bind. apply IH. intros z Hz; apply H; right; exact Hz.
Qed.

Lemma common_interval_sym a b : same_name a b = true -> agree (common_interval a b) (common_interval b a).
Proof. destruct a, b; intro H; try discriminate H; cbn; auto; destruct k, k0; cbn; reflexivity. Qed.

(** One level: if nested types behave, [common_same_type] is symmetric. *)
Definition nested (t : dtype) : list dtype :=
  match t with
  | TArray t => [t] | TMap k v => [k; v] | TRow l => l | _ => []
  end.
Lemma common_same_type_sym a b :
  (forall x, In x (nested a) -> forall y, agree (common_supertype x y) (common_supertype y x)) ->
  agree (common_same_type a b) (common_same_type b a).
Proof.
  intro H. unfold common_same_type. rewrite (same_name_sym b a).
  destruct (same_name a b) eqn:N.
  2: { exact I. }
  assert (Hk : is_in a conversion_map_keys = is_in b conversion_map_keys).
  { unfold same_name in N. apply String.eqb_eq in N. unfold is_in. rewrite N. reflexivity. }
  rewrite Hk. destruct (is_in b conversion_map_keys); [|exact I]. cbn [andb py_assert bind].
  destruct a as [sa| | [?|] | | [?|] ? | [?|] ? | | | | | ], b as [sb| | [?|] | | [?|] ? | [?|] ? | | | | | ];
    try (exfalso; destruct sa; discriminate N); try (exfalso; destruct sb; discriminate N); try discriminate N;
    try (cbn; exact I); try (cbn; reflexivity);
    try (cbn -[Z.max]; rewrite Z.max_comm; reflexivity).
  - apply common_decimal_sym.
  - cbn. destruct k, k0; cbn; reflexivity.
  - apply agree_bind, H. left; reflexivity.
  - apply agree_bind2; [apply H; left; reflexivity|]. intros f _.
    apply agree_bind, H. right; left; reflexivity.
  - apply agree_bind, common_row_list_sym, H.
Qed.

Lemma common_supertype_sym a : forall b, agree (common_supertype a b) (common_supertype b a).
Proof.
  induction a as [| | | | | | | | | |] using dtype_ind'; intro b;
  rewrite !common_supertype_eq, (same_name_sym b), (dtype_eqb_sym b);
  match goal with |- context [same_name ?x ?y] => destruct (same_name x y) eqn:N end;
    try (apply common_diff_sym; exact N);
  match goal with |- context [dtype_eqb ?x ?y] => destruct (dtype_eqb x y) eqn:D end;
    try (apply dtype_eqb_eq in D; subst; reflexivity);
  match goal with |- agree (bind (if is_in ?x _ then _ else _) _) (bind (if is_in ?y _ then _ else _) _) =>
     assert (Hk : is_in x conversion_map_keys = is_in y conversion_map_keys)
       by (unfold same_name in N; apply String.eqb_eq in N; unfold is_in; rewrite N; reflexivity);
     rewrite Hk; destruct (is_in y conversion_map_keys); [|reflexivity]
  end;
  apply agree_bind, common_same_type_sym; cbn [nested In]; intros x Hx y;
    try (exfalso; exact Hx).
  - destruct Hx as [<-|[]]; auto.
  - destruct Hx as [<-|[<-|[]]]; auto.
  - rewrite Forall_forall in *; auto.
Qed.

Lemma arithmetic_same a : get_arithmetic_type a a = Ok a.
Proof. unfold get_arithmetic_type; rewrite dtype_eqb_refl; reflexivity. Qed.
Lemma arithmetic_sym a b : agree (get_arithmetic_type a b) (get_arithmetic_type b a).
Proof.
  unfold get_arithmetic_type. rewrite (dtype_eqb_sym b a), (same_name_sym b a).
  destruct (dtype_eqb a b) eqn:D; [apply dtype_eqb_eq in D; subst; reflexivity|].
  destruct (same_name a b) eqn:N.
  - apply common_same_type_sym. intros; apply common_supertype_sym.
  - rewrite (andb_comm (is_in b _)). destruct (_ && _)%bool; [now apply common_numeric_sym | reflexivity].
Qed.

(** ** Representable numbers *)

(** Width in bits of the signed integer types. *)
Definition int_bits (s : simple) : option Z :=
  match s with
  | STinyint => Some 8 | SSmallint => Some 16 | SInteger => Some 32 | SBigint => Some 64
  | _ => None
  end.
(** [q] is a value of the exact numeric type [t]: a two's complement integer, or
    an integer of at most [p] decimal digits divided by 10^s. *)
Definition holds (t : dtype) (q : Q) : Prop :=
  match t with
  | TSimple s =>
      exists bits z, int_bits s = Some bits /\ - 2 ^ (bits - 1) <= z < 2 ^ (bits - 1)
                     /\ (q == inject_Z z)%Q
  | TDecimal p s =>
      exists n, Z.abs n < 10 ^ p /\ (q * inject_Z (10 ^ s) == inject_Z n)%Q
  | _ => False
  end.
(** Exact numeric types with a non-negative scale. *)
Definition exact_numeric (t : dtype) : bool :=
  match t with
  | TSimple s => match int_bits s with Some _ => true | None => false end
  | TDecimal p s => (0 <=? p) && (p <=? 38) && (0 <=? s)
  | _ => false
  end.

Lemma holds_widen p1 s1 P S q :
  0 <= p1 -> 0 <= s1 <= S -> p1 - s1 + S <= P ->
  holds (TDecimal p1 s1) q -> holds (TDecimal P S) q.
Proof.
  intros Hp Hs HP (n & Hn & Hq). exists (n * 10 ^ (S - s1)). split.
  - rewrite Z.abs_mul, (Z.abs_eq (10 ^ (S - s1))) by (apply Z.pow_nonneg; lia).
    apply Z.lt_le_trans with (10 ^ p1 * 10 ^ (S - s1)).
    + apply Z.mul_lt_mono_pos_r; [apply Z.pow_pos_nonneg; lia | exact Hn].
    + rewrite <- Z.pow_add_r by lia. apply Z.pow_le_mono_r; lia.
  - rewrite inject_Z_mult, <- Hq. replace (10 ^ S) with (10 ^ s1 * 10 ^ (S - s1)).
    + rewrite inject_Z_mult. ring.
    + rewrite <- Z.pow_add_r by lia. f_equal; lia.
Qed.

Lemma decimal_inv p s c : decimal p s = Ok c -> c = TDecimal p s /\ 0 <= p <= 38.
Proof.
  unfold decimal, py_assert. destruct ((0 <=? p) && (p <=? 38))%bool eqn:E; cbn; intro H; [|discriminate].
  injection H as <-. apply andb_true_iff in E as [E1 E2]. apply Z.leb_le in E1, E2. auto.
Qed.

Lemma dec_max_holds p1 s1 p2 s2 c q :
  0 <= p1 -> 0 <= s1 -> 0 <= p2 -> 0 <= s2 ->
  dec_max p1 s1 p2 s2 = Ok c ->
  holds (TDecimal p1 s1) q \/ holds (TDecimal p2 s2) q -> holds c q.
Proof.
  intros H1 H2 H3 H4 E H. apply decimal_inv in E as [-> E].
  destruct H as [H|H]; (eapply holds_widen; [| | |exact H]); lia.
Qed.

Lemma int_holds_decimal s b p q :
  int_bits s = Some b -> integral_precision (simple_name s) = Ok p ->
  holds (TSimple s) q -> holds (TDecimal p 0) q.
Proof.
  intros Hb Hp (b' & z & Hb' & Hz & Hq). exists z. rewrite Hb in Hb'; injection Hb' as <-.
  split.
  - destruct s; try discriminate Hb; injection Hb as <-; vm_compute in Hp; injection Hp as <-;
      change (10 ^ 3) with 1000; change (10 ^ 5) with 100000; change (10 ^ 10) with 10000000000;
      change (10 ^ 19) with 10000000000000000000;
      cbn in Hz; lia.
  - change (inject_Z (10 ^ 0)) with 1%Q. rewrite Qmult_1_r. exact Hq.
Qed.

Lemma int_widen s s' b b' q :
  int_bits s = Some b -> int_bits s' = Some b' -> b <= b' -> holds (TSimple s) q -> holds (TSimple s') q.
Proof.
  intros Hb Hb' Hle (b0 & z & H0 & Hz & Hq). rewrite Hb in H0; injection H0 as <-.
  exists b', z. split; [exact Hb'|]. split; [|exact Hq].
  assert (0 < b) by (destruct s; try discriminate Hb; injection Hb as <-; lia).
  pose proof (Z.pow_le_mono_r 2 (b - 1) (b' - 1)). lia.
Qed.

Lemma exact_decimal p s : exact_numeric (TDecimal p s) = true -> 0 <= p <= 38 /\ 0 <= s.
Proof. cbn; intro H; repeat (apply andb_true_iff in H as [H ?]); lia. Qed.

Lemma arithmetic_holds a b c q :
  exact_numeric a = true -> exact_numeric b = true ->
  get_arithmetic_type a b = Ok c -> holds a q \/ holds b q -> holds c q.
Proof.
  intros Ha Hb E H. unfold get_arithmetic_type in E.
  destruct (dtype_eqb a b) eqn:D.
  { apply dtype_eqb_eq in D; subst b. injection E as <-. tauto. }
  destruct a as [sa|p1 s1| | | | | | | | |], b as [sb|p2 s2| | | | | | | | |]; try discriminate Ha; try discriminate Hb.
  - (* integers *)
    assert (Hpick : (c = TSimple sa /\ forall b1 b2, int_bits sa = Some b1 -> int_bits sb = Some b2 -> b2 <= b1)
                 \/ (c = TSimple sb /\ forall b1 b2, int_bits sa = Some b1 -> int_bits sb = Some b2 -> b1 <= b2)).
    { destruct sa; try discriminate Ha; destruct sb; try discriminate Hb; try discriminate D;
        vm_compute in E; injection E as <-;
        ((left; split; [reflexivity | intros ? ? X Y; injection X as <-; injection Y as <-; lia])
         || (right; split; [reflexivity | intros ? ? X Y; injection X as <-; injection Y as <-; lia])). }
    cbn in Ha, Hb. destruct (int_bits sa) as [ba|] eqn:Ea; [|discriminate Ha].
    destruct (int_bits sb) as [bb|] eqn:Eb; [|discriminate Hb].
    destruct Hpick as [[-> Hle]|[-> Hle]]; specialize (Hle _ _ eq_refl eq_refl);
      destruct H as [H|H]; try exact H.
    + eapply int_widen; [exact Eb|exact Ea|exact Hle|exact H].
    + eapply int_widen; [exact Ea|exact Eb|exact Hle|exact H].
  - apply exact_decimal in Hb.
    cbn in Ha. destruct (int_bits sa) as [ba|] eqn:Ea; [|discriminate Ha].
    assert (exists p, integral_precision (simple_name sa) = Ok p /\ 0 <= p /\ dec_max p 0 p2 s2 = Ok c) as (p & Hp & Hp0 & Hd).
    { destruct sa; try discriminate Ea; eexists; (split; [reflexivity|]); (split; [lia|]); exact E. }
    eapply dec_max_holds; [exact Hp0| | | |exact Hd|]; try lia.
    destruct H as [H|H]; [left|right; exact H]. eapply int_holds_decimal; [exact Ea|exact Hp|exact H].
  - apply exact_decimal in Ha.
    cbn in Hb. destruct (int_bits sb) as [bb|] eqn:Eb; [|discriminate Hb].
    assert (exists p, integral_precision (simple_name sb) = Ok p /\ 0 <= p /\ dec_max p1 s1 p 0 = Ok c) as (p & Hp & Hp0 & Hd).
    { destruct sb; try discriminate Eb; eexists; (split; [reflexivity|]); (split; [lia|]); exact E. }
    eapply dec_max_holds; [| | | |exact Hd|]; try lia.
    destruct H as [H|H]; [left; exact H|right]. eapply int_holds_decimal; [exact Eb|exact Hp|exact H].
  - apply exact_decimal in Ha, Hb.
    change (dec_max p1 s1 p2 s2 = Ok c) in E.
    eapply dec_max_holds; [| | | |exact E|exact H]; lia.
Qed.

(** When does it raise?  Exactly when the digits needed exceed 38. *)
Lemma arithmetic_decimal_total p1 s1 p2 s2 :
  exact_numeric (TDecimal p1 s1) = true -> exact_numeric (TDecimal p2 s2) = true ->
  TDecimal p1 s1 <> TDecimal p2 s2 ->
  get_arithmetic_type (TDecimal p1 s1) (TDecimal p2 s2)
  = if Z.max (p1 - s1) (p2 - s2) + Z.max s1 s2 <=? 38
    then Ok (TDecimal (Z.max (p1 - s1) (p2 - s2) + Z.max s1 s2) (Z.max s1 s2))
    else Err AssertionError.
Proof.
  intros Ha Hb D. apply exact_decimal in Ha, Hb. unfold get_arithmetic_type.
  apply dtype_eqb_neq in D. rewrite D.
  change (dec_max p1 s1 p2 s2 = if Z.max (p1 - s1) (p2 - s2) + Z.max s1 s2 <=? 38
    then Ok (TDecimal (Z.max (p1 - s1) (p2 - s2) + Z.max s1 s2) (Z.max s1 s2))
    else Err AssertionError).
  unfold dec_max, decimal, py_assert.
  replace (0 <=? Z.max (p1 - s1) (p2 - s2) + Z.max s1 s2) with true by (symmetry; apply Z.leb_le; lia).
  cbn [andb]. destruct (_ <=? 38); reflexivity.
Qed.

(** No smaller decimal type would do. *)
Lemma Qint_div a b d : (inject_Z a * inject_Z d == inject_Z b)%Q <-> a * d = b.
Proof.
  rewrite <- inject_Z_mult. unfold Qeq, inject_Z; cbn. rewrite !Z.mul_1_r. tauto.
Qed.
Lemma decimal_needs p s P S :
  1 <= p -> 0 <= s -> 0 <= P -> 0 <= S ->
  (forall q, holds (TDecimal p s) q -> holds (TDecimal P S) q) -> s <= S /\ p - s <= P - S.
Proof.
  intros Hp Hs HP HS H.
  assert (Pos : forall x, 0 <= x -> 0 < 10 ^ x) by (intros; apply Z.pow_pos_nonneg; lia).
  assert (Hne : ~ (inject_Z (10 ^ s) == 0)%Q).
  { intro E. unfold Qeq, inject_Z in E; cbn in E. pose proof (Pos s Hs); lia. }
  assert (Hss : s <= S).
  { destruct (H (/ inject_Z (10 ^ s))%Q) as (n & Hn & Hq).
    - exists 1. split; [|field; exact Hne].
      change (10 ^ 0 < 10 ^ p). apply Z.pow_lt_mono_r; lia.
    - destruct (Z_le_gt_dec s S) as [L|G]; [exact L|exfalso].
      assert (E : (inject_Z (10 ^ S) == inject_Z n * inject_Z (10 ^ s))%Q) by (rewrite <- Hq; field; exact Hne).
      symmetry in E. apply (proj1 (Qint_div _ _ _)) in E.
      assert (0 < n). { apply (Z.mul_pos_cancel_r n (10 ^ s)); [exact (Pos s Hs)|]. rewrite E. exact (Pos S HS). }
      assert (10 ^ S < 10 ^ s) by (apply Z.pow_lt_mono_r; lia).
      pose proof (Pos s Hs). generalize dependent (10 ^ s). generalize dependent (10 ^ S). intros; nia. }
  split; [exact Hss|].
  destruct (H (inject_Z (10 ^ (p - 1)) * / inject_Z (10 ^ s))%Q) as (n & Hn & Hq).
  - exists (10 ^ (p - 1)). split; [|field; exact Hne].
    rewrite Z.abs_eq by (pose proof (Pos (p - 1)); lia). apply Z.pow_lt_mono_r; lia.
  - assert (E : n = 10 ^ (p - 1) * 10 ^ (S - s)).
    { replace (10 ^ S) with (10 ^ s * 10 ^ (S - s)) in Hq by (rewrite <- Z.pow_add_r by lia; f_equal; lia).
      rewrite inject_Z_mult in Hq.
      assert (E : (inject_Z (10 ^ (p - 1)) * inject_Z (10 ^ (S - s)) == inject_Z n)%Q)
        by (rewrite <- Hq; field; exact Hne).
      apply (proj1 (Qint_div _ _ _)) in E. auto. }
    rewrite <- Z.pow_add_r in E by lia. rewrite E, Z.abs_eq in Hn by (apply Z.pow_nonneg; lia).
    apply Z.pow_lt_mono_r_iff in Hn; lia.
Qed.
Lemma arithmetic_least p1 s1 p2 s2 p s P S :
  exact_numeric (TDecimal p1 s1) = true -> exact_numeric (TDecimal p2 s2) = true ->
  1 <= p1 -> 1 <= p2 -> 0 <= P -> 0 <= S ->
  get_arithmetic_type (TDecimal p1 s1) (TDecimal p2 s2) = Ok (TDecimal p s) ->
  (forall q, holds (TDecimal p1 s1) q \/ holds (TDecimal p2 s2) q -> holds (TDecimal P S) q) ->
  s <= S /\ p - s <= P - S.
Proof.
  intros Ha Hb L1 L2 LP LS E H. apply exact_decimal in Ha as Ha', Hb as Hb'.
  pose proof (decimal_needs p1 s1 P S L1 ltac:(lia) LP LS (fun q h => H q (or_introl h))).
  pose proof (decimal_needs p2 s2 P S L2 ltac:(lia) LP LS (fun q h => H q (or_intror h))).
  destruct (dtype_eqb (TDecimal p1 s1) (TDecimal p2 s2)) eqn:D.
  - unfold get_arithmetic_type in E. rewrite D in E. injection E as <- <-. assumption.
  - apply dtype_eqb_neq in D. rewrite (arithmetic_decimal_total _ _ _ _ Ha Hb D) in E.
    destruct (_ <=? 38); [|discriminate]. injection E as <- <-. lia.
Qed.

(** ** VALUES and COALESCE *)

(** Integer and floating types in widening order. *)
Definition rank (t : dtype) : option nat :=
  match t with
  | TSimple STinyint => Some 1%nat | TSimple SSmallint => Some 2%nat | TSimple SInteger => Some 3%nat
  | TSimple SBigint => Some 4%nat | TSimple SReal => Some 5%nat | TSimple SDouble => Some 6%nat
  | _ => None
  end.
Lemma rank_inj a b n : rank a = Some n -> rank b = Some n -> a = b.
Proof. split_simple a; split_simple b; cbn; intros A B; try discriminate; congruence. Qed.
Lemma common_rank a b na nb :
  rank a = Some na -> rank b = Some nb ->
  common_supertype a b = Ok (if Nat.leb na nb then b else a).
Proof.
  destruct a as [[]| | | | | | | | | |]; cbn [rank]; intro A; try discriminate A; injection A as <-;
  destruct b as [[]| | | | | | | | | |]; cbn [rank]; intro B; try discriminate B; injection B as <-; reflexivity.
Qed.

(** The widest type of the list. *)
Definition widest (l : list dtype) (t : dtype) : Prop :=
  In t l /\ exists n, rank t = Some n /\ forall x, In x l -> exists m, rank x = Some m /\ (m <= n)%nat.
Definition ranked (l : list dtype) : Prop := forall x, In x l -> exists n, rank x = Some n.

Lemma widest_unique l t u : widest l t -> widest l u -> t = u.
Proof.
  intros [It (n & Rn & Hn)] [Iu (m & Rm & Hm)].
  destruct (Hn u Iu) as (x & Rx & Lx). destruct (Hm t It) as (y & Ry & Ly).
  rewrite Rm in Rx; injection Rx as <-. rewrite Rn in Ry; injection Ry as <-.
  replace m with n in Rm by lia. eapply rank_inj; eassumption.
Qed.
Lemma widest_perm l l' t : Permutation l l' -> widest l t -> widest l' t.
Proof.
  intros P [I (n & R & H)]. split; [eapply Permutation_in; eassumption|].
  exists n; split; [exact R|]. intros x Hx. apply H. eapply Permutation_in; [apply Permutation_sym|]; eassumption.
Qed.

Lemma reduce_from_widest l : forall acc, ranked (acc :: l) ->
  exists t, reduce_from acc l = Ok t /\ widest (acc :: l) t.
Proof.
  induction l as [|x l IH]; intros acc R; cbn [reduce_from].
  - exists acc. split; [reflexivity|]. split; [left; reflexivity|].
    destruct (R acc (or_introl eq_refl)) as [n Hn]. exists n. split; [exact Hn|].
    intros x [<-|[]]. eauto.
  - destruct (R acc (or_introl eq_refl)) as [na Ha].
    destruct (R x (or_intror (or_introl eq_refl))) as [nx Hx].
    rewrite (common_rank _ _ _ _ Ha Hx). cbn [bind].
    set (a' := if Nat.leb na nx then x else acc).
    destruct (IH a') as (t & Et & It & n & Rn & Hn).
    { intros y [<-|Hy]; [unfold a'; destruct (Nat.leb na nx); eauto | apply R; right; right; exact Hy]. }
    exists t. split; [exact Et|]. split.
    + destruct It as [<-|It]; [unfold a'; destruct (Nat.leb na nx); cbn; auto | cbn; auto].
    + exists n. split; [exact Rn|]. 
      destruct (Hn a' (or_introl eq_refl)) as (m & Rm & Lm).
      intros y [<-|[<-|Hy]].
      * exists na. split; [exact Ha|]. unfold a' in Rm. destruct (Nat.leb_spec na nx).
        -- rewrite Hx in Rm; injection Rm as <-; lia.
        -- rewrite Ha in Rm; injection Rm as <-; lia.
      * exists nx. split; [exact Hx|]. unfold a' in Rm. destruct (Nat.leb_spec na nx).
        -- rewrite Hx in Rm; injection Rm as <-; lia.
        -- rewrite Ha in Rm; injection Rm as <-; lia.
      * apply Hn. right; exact Hy.
Qed.

Lemma ranked_known t n : rank t = Some n -> is_unknown t = false.
Proof. split_simple t; cbn; intro H; try discriminate H; reflexivity. Qed.

Lemma values_fold_reduce l : forall acc, ranked (acc :: l) -> values_fold acc l = reduce_from acc l.
Proof.
  induction l as [|x l IH]; intros acc R; cbn [values_fold reduce_from]; [reflexivity|].
  destruct (R acc (or_introl eq_refl)) as [na Ha].
  destruct (R x (or_intror (or_introl eq_refl))) as [nx Hx].
  rewrite (ranked_known _ _ Ha), (common_rank _ _ _ _ Ha Hx). cbn [bind]. apply IH.
  intros y [<-|Hy]; [destruct (Nat.leb na nx); eauto | apply R; right; right; exact Hy].
Qed.

Lemma values_widest l : l <> [] -> ranked l -> exists t, values_type l = Ok t /\ widest l t.
Proof.
  destruct l as [|x l]; [congruence|]. intros _ R. unfold values_type. cbn [values_fold bind is_unknown].
  change (is_unknown unknown) with true. cbv iota. cbn [bind].
  rewrite values_fold_reduce by exact R. now apply reduce_from_widest.
Qed.
Lemma values_perm l l' : l <> [] -> ranked l -> Permutation l l' -> values_type l = values_type l'.
Proof.
  intros N R P. destruct (values_widest l N R) as (t & E & W).
  destruct (values_widest l') as (t' & E' & W').
  - intros ->. apply Permutation_sym, Permutation_nil in P. contradiction.
  - intros x Hx; apply R. eapply Permutation_in; [apply Permutation_sym|]; eassumption.
  - rewrite E, E'. f_equal. eapply widest_unique; [eapply widest_perm; eassumption | exact W'].
Qed.
(** Any number of unknown (NULL) arguments is ignored by COALESCE. *)
Lemma coalesce_widest l :
  (forall x, In x l -> x = unknown \/ exists n, rank x = Some n) ->
  (exists x, In x l /\ x <> unknown) ->
  exists t, coalesce_type l = Ok t /\ widest (filter (fun t => negb (is_unknown t)) l) t.
Proof.
  intros H [x [Ix Nx]]. unfold coalesce_type.
  set (l' := filter (fun t => negb (is_unknown t)) l).
  assert (R : ranked l').
  { intros y Hy. apply filter_In in Hy as [Hy Ny]. destruct (H y Hy) as [->|R]; [discriminate Ny | exact R]. }
  assert (Ix' : In x l').
  { apply filter_In. split; [exact Ix|]. apply negb_true_iff. apply dtype_eqb_neq. exact Nx. }
  destruct l' as [|y l']; [destruct Ix'|]. cbn [reduce_supertype]. now apply reduce_from_widest.
Qed.
(** All rows of one type. *)
Lemma values_same t l : (forall x, In x l -> x = t) -> l <> [] -> values_type l = Ok t.
Proof.
  destruct l as [|x l]; [congruence|]. intros H _. unfold values_type; cbn [values_fold].
  change (is_unknown unknown) with true. cbv iota; cbn [bind].
  rewrite (H x (or_introl eq_refl)). assert (H' : forall x, In x l -> x = t) by (intros; apply H; right; auto).
  clear H. induction l as [|y l IH]; cbn [values_fold]; [reflexivity|].
  rewrite (H' y (or_introl eq_refl)). rewrite common_supertype_same.
  destruct (is_unknown t); cbn [bind]; apply IH; intros; apply H'; right; auto.
Qed.

(** ** Common supertype as upper bound *)
Lemma supertype_holds a b c q :
  exact_numeric a = true -> exact_numeric b = true -> type_name a <> type_name b ->
  common_supertype a b = Ok c -> holds a q \/ holds b q -> holds c q.
Proof.
  intros Ha Hb N E. apply arithmetic_holds; [exact Ha|exact Hb|].
  assert (Nn : same_name a b = false) by (apply String.eqb_neq; exact N).
  unfold get_arithmetic_type. rewrite Nn.
  destruct (dtype_eqb a b) eqn:D; [apply dtype_eqb_eq in D; subst; congruence|].
  rewrite common_supertype_eq, Nn in E. unfold common_diff in E.
  assert (Hn : forall t, exact_numeric t = true -> is_in t numeric_types = true)
    by (intro t; split_simple t; cbn; intro X; try discriminate X; reflexivity).
  rewrite (Hn a Ha) in E. rewrite (Hn a Ha), (Hn b Hb). exact E.
Qed.
Lemma supertype_string n m c :
  0 <= n <= 65536 -> common_supertype (TVarchar (Some n)) (TChar m) = Ok c ->
  exists k, c = TChar k /\ n <= k /\ m <= k.
Proof.
  intros Hn E. cbn -[Z.max Z.min max_char_length] in E. injection E as <-.
  exists (Z.max (Z.min max_char_length n) m). split; [reflexivity|]. unfold max_char_length. lia.
Qed.
