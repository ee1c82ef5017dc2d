(** What Floats.v computes: the binary64 number nearest to a decimal one, in rational numbers. *)
From Coq Require Import QArith Qpower Qabs ZArith Lia Lqa Bool.
From Verif Require Import Floats.
Open Scope Q_scope.

(** * What is to be computed *)

(** [m * 2^k], [c * 10^e]. *)
Definition binary (m k : Z) : Q := inject_Z m * (2#1) ^ k.
Definition decimal (c e : Z) : Q := inject_Z c * (10#1) ^ e.
(** The finite numbers of the format: 53 bits, exponents from -1074 to 971. *)
Definition is_double (m k : Z) : Prop := (0 <= m < 2 ^ 53 /\ -1074 <= k <= 971)%Z.
(** From here on numbers are rounded to infinity: the largest one and half a unit of its last place. *)
Definition overflow : Q := binary (2 ^ 54 - 1) 970.
(** The nearest number, of two the one with the even significand. *)
Definition nearest_double (q : Q) (m k : Z) : Prop :=
  is_double m k /\
  forall m' k', is_double m' k' ->
    Qabs (binary m k - q) <= Qabs (binary m' k' - q)
    /\ (Qabs (binary m k - q) == Qabs (binary m' k' - q) -> binary m' k' == binary m k \/ Z.even m = true).
Definition rounded (q : Q) (x : float64) : Prop :=
  match x with
  | FInf => overflow <= q
  | FZero => q < overflow /\ nearest_double q 0 (-1074)
  | FFin m k => q < overflow /\ nearest_double q m k
  end.

(** * The computation *)
Definition frac (n d : Z) : Q := inject_Z n / inject_Z d.
Lemma inj_pos d : (0 < d)%Z -> 0 < inject_Z d.
Proof. intro H. change 0 with (inject_Z 0). now rewrite <- Zlt_Qlt. Qed.
Lemma two_pos k : 0 < (2#1) ^ k.
Proof. now apply Qpower_0_lt. Qed.
Lemma scale_frac b e n d : (0 < b)%Z -> (0 < d)%Z -> (0 <= n)%Z ->
  (0 < snd (scale b e n d) /\ 0 <= fst (scale b e n d) /\ (0 < n -> 0 < fst (scale b e n d)))%Z
  /\ frac (fst (scale b e n d)) (snd (scale b e n d)) == frac n d * inject_Z b ^ e.
Proof.
  intros B D N. unfold scale. destruct (Z.leb_spec 0 e) as [E|E]; cbn [fst snd].
  - assert (P : (0 < b ^ e)%Z) by (apply Z.pow_pos_nonneg; lia). repeat split; try nia.
    unfold frac. rewrite inject_Z_mult, Zpower_Qpower by exact E. field. pose proof (inj_pos d D). lra.
  - assert (P : (0 < b ^ (- e))%Z) by (apply Z.pow_pos_nonneg; lia). repeat split; try nia.
    unfold frac. rewrite inject_Z_mult, Zpower_Qpower by lia. rewrite Qpower_opp.
    pose proof (inj_pos d D). pose proof (Qpower_0_lt (inject_Z b) e (inj_pos b B)). field. split; lra.
Qed.
Lemma nearest_spec n d : (0 < d)%Z -> (0 <= n)%Z ->
  (0 <= nearest n d /\ 2 * Z.abs (nearest n d * d - n) <= d
   /\ (2 * Z.abs (nearest n d * d - n) = d -> Z.even (nearest n d) = true))%Z.
Proof.
  intros D N. unfold nearest. pose proof (Z.div_mod n d ltac:(lia)) as E. pose proof (Z.mod_pos_bound n d D) as B.
  pose proof (Z.div_pos n d N D) as P. set (q := (n / d)%Z) in *. set (r := (n mod d)%Z) in *.
  assert (A : (q * d - n = - r)%Z) by nia. assert (A' : ((q + 1) * d - n = d - r)%Z) by nia.
  destruct (Z.ltb_spec (2 * r) d); [rewrite A; repeat split; lia|].
  destruct (Z.ltb_spec d (2 * r)); [rewrite A'; repeat split; lia|].
  destruct (Z.even q) eqn:V; [rewrite A|rewrite A']; repeat split; try lia; intros _; auto.
  rewrite Z.even_add, V. reflexivity.
Qed.
Lemma nearest_best n d z : (0 < d)%Z -> (0 <= n)%Z ->
  (Z.abs (nearest n d * d - n) <= Z.abs (z * d - n)
   /\ (Z.abs (nearest n d * d - n) = Z.abs (z * d - n) -> z = nearest n d \/ Z.even (nearest n d) = true))%Z.
Proof.
  intros D N. destruct (nearest_spec n d D N) as (P & B & T). destruct (Z.eq_dec z (nearest n d)) as [->|Z0]; [auto with zarith|].
  assert (G : (d <= Z.abs (z * d - n) + Z.abs (nearest n d * d - n))%Z).
  { assert (d <= Z.abs (z * d - nearest n d * d))%Z by (rewrite <- Z.mul_sub_distr_r, Z.abs_mul; nia). lia. }
  split; [lia|]. intro E. right. apply T. lia.
Qed.
Lemma abs_frac n d z : (0 < d)%Z -> Qabs (inject_Z z - frac n d) == frac (Z.abs (z * d - n)) d.
Proof.
  intro D. pose proof (inj_pos d D) as P. unfold frac.
  assert (E : inject_Z z - inject_Z n / inject_Z d == inject_Z (z * d - n) * / inject_Z d).
  { unfold Z.sub. rewrite inject_Z_plus, inject_Z_mult, inject_Z_opp. field. lra. }
  rewrite E, Qabs_Qmult. unfold Qdiv. rewrite (Qabs_pos (/ inject_Z d)).
  - apply Qmult_comp; [|reflexivity]. reflexivity.
  - apply Qlt_le_weak. now apply Qinv_lt_0_compat.
Qed.
Lemma frac_le a b d : (0 < d)%Z -> (a <= b)%Z -> frac a d <= frac b d.
Proof.
  intros D H. unfold frac, Qdiv. apply Qmult_le_compat_r; [now rewrite <- Zle_Qle|].
  apply Qlt_le_weak. apply Qinv_lt_0_compat. now apply inj_pos.
Qed.
Lemma frac_inj a b d : (0 < d)%Z -> frac a d == frac b d -> a = b.
Proof.
  intros D H. pose proof (inj_pos d D) as P. unfold frac in H.
  assert (E : inject_Z a == inject_Z b).
  { setoid_replace (inject_Z a) with (inject_Z a / inject_Z d * inject_Z d) by (field; lra). rewrite H. field. lra. }
  now apply inject_Z_injective.
Qed.
(** The rounded significand is as near as any integer; *)
Lemma nearest_integer n d z : (0 < d)%Z -> (0 <= n)%Z ->
  Qabs (inject_Z (nearest n d) - frac n d) <= Qabs (inject_Z z - frac n d)
  /\ (Qabs (inject_Z (nearest n d) - frac n d) == Qabs (inject_Z z - frac n d) -> z = nearest n d \/ Z.even (nearest n d) = true).
Proof.
  intros D N. destruct (nearest_best n d z D N) as [A B]. rewrite !abs_frac by exact D. split; [now apply frac_le|].
  intro E. apply B. now apply (frac_inj _ _ d).
Qed.
Lemma binary_scale m k k' : binary m k' == (2#1) ^ k * (inject_Z m * (2#1) ^ (k' - k)).
Proof.
  unfold binary. rewrite (Qmult_comm ((2#1) ^ k)), <- Qmult_assoc, <- Qpower_plus by discriminate.
  replace (k' - k + k)%Z with k' by lia. reflexivity.
Qed.
Lemma abs_scale k x w : Qabs ((2#1) ^ k * x - (2#1) ^ k * w) == (2#1) ^ k * Qabs (x - w).
Proof.
  setoid_replace ((2#1) ^ k * x - (2#1) ^ k * w) with ((2#1) ^ k * (x - w)) by ring.
  rewrite Qabs_Qmult. rewrite (Qabs_pos ((2#1) ^ k)); [reflexivity|]. apply Qlt_le_weak, two_pos.
Qed.
Lemma scaled_le k a b : a <= b -> (2#1) ^ k * a <= (2#1) ^ k * b.
Proof. intro H. pose proof (two_pos k). rewrite !(Qmult_comm ((2#1) ^ k)). apply Qmult_le_compat_r; lra. Qed.
Lemma scaled_eq k a b : (2#1) ^ k * a == (2#1) ^ k * b -> a == b.
Proof. intro H. apply (Qmult_inj_l _ _ ((2#1) ^ k)); [|exact H]. pose proof (two_pos k). lra. Qed.
(** as near as any number of the format, if it has 53 bits or the least exponent. *)
Lemma nearest_is n d k m' k' : (0 < d)%Z -> (0 <= n)%Z -> (-1074 <= k)%Z ->
  ((-1074 < k)%Z -> inject_Z (2 ^ 52) <= frac n d) -> is_double m' k' ->
  let m := nearest n d in let q := (2#1) ^ k * frac n d in
  Qabs (binary m k - q) <= Qabs (binary m' k' - q)
  /\ (Qabs (binary m k - q) == Qabs (binary m' k' - q) -> binary m' k' == binary m k \/ Z.even m = true).
Proof.
  intros D N K W [[M0 M1] [K0 K1]] m q. unfold q. rewrite (binary_scale m k k), (binary_scale m' k k').
  rewrite Z.sub_diag, Qpower_0_r, Qmult_1_r, !abs_scale.
  destruct (Z_le_gt_dec k k') as [L|G].
  - assert (E : inject_Z m' * (2#1) ^ (k' - k) == inject_Z (m' * 2 ^ (k' - k))).
    { rewrite inject_Z_mult, Zpower_Qpower by lia. reflexivity. }
    rewrite E. destruct (nearest_integer n d (m' * 2 ^ (k' - k)) D N) as [A B]. split; [now apply scaled_le|].
    intro H. apply scaled_eq in H. destruct (B H) as [->|V]; [left; reflexivity|now right].
  - assert (W' : inject_Z (2 ^ 52) <= frac n d) by (apply W; lia).
    assert (X : inject_Z m' * (2#1) ^ (k' - k) < inject_Z (2 ^ 52)).
    { assert (P : (2#1) ^ (k' - k) <= 1#2).
      { change (1#2) with ((2#1) ^ (-1)). apply Qpower_le_compat_l; [lia|discriminate]. }
      assert (M : inject_Z m' <= inject_Z (2 ^ 53 - 1)) by (rewrite <- Zle_Qle; lia).
      pose proof (two_pos (k' - k)) as P0. assert (M' : 0 <= inject_Z m') by (change 0 with (inject_Z 0); rewrite <- Zle_Qle; lia).
      apply Qle_lt_trans with (inject_Z (2 ^ 53 - 1) * (1#2)); [|reflexivity].
      apply Qle_trans with (inject_Z (2 ^ 53 - 1) * (2#1) ^ (k' - k)).
      - apply Qmult_le_compat_r; lra.
      - rewrite !(Qmult_comm (inject_Z (2 ^ 53 - 1))). apply Qmult_le_compat_r; [exact P|discriminate]. }
    destruct (nearest_integer n d (2 ^ 52) D N) as [A _]. set (w := frac n d) in *. set (x := inject_Z m' * (2#1) ^ (k' - k)) in *.
    rewrite (Qabs_neg (inject_Z (2 ^ 52) - w)) in A by lra.
    assert (Y : Qabs (inject_Z m - w) < Qabs (x - w)) by (rewrite (Qabs_neg (x - w)) by lra; unfold m; lra).
    split; [apply scaled_le; lra|]. intro H. apply scaled_eq in H. lra.
Qed.
Lemma near_half n d : (0 < d)%Z -> (0 <= n)%Z -> Qabs (inject_Z (nearest n d) - frac n d) <= 1#2.
Proof.
  intros D N. destruct (nearest_spec n d D N) as (_ & B & _). rewrite abs_frac by exact D. pose proof (inj_pos d D) as P.
  unfold frac. apply Qle_shift_div_r; [exact P|].
  assert (E : inject_Z (2 * Z.abs (nearest n d * d - n)) <= inject_Z d) by (rewrite <- Zle_Qle; exact B).
  rewrite inject_Z_mult in E. change (inject_Z 2) with (2#1) in E. lra.
Qed.
Lemma log_frac n : (0 < n)%Z -> 1 <= inject_Z n * (2#1) ^ (- Z.log2 n) < 2#1.
Proof.
  intro N. pose proof (Z.log2_spec n N) as [A B]. pose proof (Z.log2_nonneg n) as L. rewrite Zlt_Qlt in B. rewrite Zle_Qle in A.
  rewrite Zpower_Qpower in A, B by lia. change (inject_Z 2) with (2#1) in A, B. rewrite Qpower_opp.
  pose proof (two_pos (Z.log2 n)) as P. unfold Z.succ in B. rewrite Qpower_plus in B by discriminate. change ((2#1) ^ 1) with (2#1) in B.
  split; [apply Qle_shift_div_l|apply Qlt_shift_div_r]; lra.
Qed.
Lemma pow_split a b : (2#1) ^ (a + b) == (2#1) ^ a * (2#1) ^ b.
Proof. apply Qpower_plus. discriminate. Qed.
Lemma frac_bounds n d : (0 < n)%Z -> (0 < d)%Z ->
  let l := (Z.log2 n - Z.log2 d)%Z in (1#2) < frac n d * (2#1) ^ (- l) < 2#1.
Proof.
  intros N D l. pose proof (log_frac n N) as [N1 N2]. pose proof (log_frac d D) as [D1 D2].
  assert (E : frac n d * (2#1) ^ (- l) == (inject_Z n * (2#1) ^ (- Z.log2 n)) / (inject_Z d * (2#1) ^ (- Z.log2 d))).
  { unfold l, frac. replace (- (Z.log2 n - Z.log2 d))%Z with (- Z.log2 n + - - Z.log2 d)%Z by lia. rewrite pow_split.
    rewrite (Qpower_opp _ (- Z.log2 d)). pose proof (two_pos (- Z.log2 d)). pose proof (inj_pos d D). field. split; lra. }
  rewrite E. set (a := inject_Z n * _) in *. set (b := inject_Z d * _) in *.
  split; [apply Qlt_shift_div_l|apply Qlt_shift_div_r]; lra.
Qed.
Lemma pow_mono a b : (a <= b)%Z -> (2#1) ^ a <= (2#1) ^ b.
Proof. intro H. now apply Qpower_le_compat_l. Qed.
(** The exponent makes a significand of 53 bits, or is the least one. *)
Lemma significand_bounds n d : (0 < n)%Z -> (0 < d)%Z ->
  let l := (Z.log2 n - Z.log2 d)%Z in
  let k := Z.max (-1074) (if (snd (scale 2 (- l) n d) <=? fst (scale 2 (- l) n d))%Z then l - 52 else l - 53)%Z in
  frac n d * (2#1) ^ (- k) < inject_Z (2 ^ 53) /\ ((-1074 < k)%Z -> inject_Z (2 ^ 52) <= frac n d * (2#1) ^ (- k)).
Proof.
  intros N D l k. pose proof (frac_bounds n d N D) as [L U]. fold l in L, U.
  destruct (scale_frac 2 (- l) n d ltac:(lia) D ltac:(lia)) as [[D1 [_ N1]] E]. specialize (N1 N).
  set (n1 := fst (scale 2 (- l) n d)) in *. set (d1 := snd (scale 2 (- l) n d)) in *.
  change (inject_Z 2) with (2#1) in E. rewrite <- E in L, U. pose proof (inj_pos d1 D1) as P1.
  assert (F : 0 < frac n d).
  { unfold frac. apply Qlt_shift_div_l; [now apply inj_pos|]. rewrite Qmult_0_l. now apply inj_pos. }
  assert (G : forall k0, (forall j, j = (k0 - l)%Z -> inject_Z (2 ^ 52) <= frac n1 d1 * (2#1) ^ (- j) < inject_Z (2 ^ 53)) ->
                         k = Z.max (-1074) k0 ->
                         frac n d * (2#1) ^ (- k) < inject_Z (2 ^ 53) /\ ((-1074 < k)%Z -> inject_Z (2 ^ 52) <= frac n d * (2#1) ^ (- k))).
  { intros k0 H K. specialize (H _ eq_refl).
    assert (X : frac n1 d1 * (2#1) ^ (- (k0 - l)) == frac n d * (2#1) ^ (- k0)).
    { rewrite E, <- Qmult_assoc, <- pow_split. replace (- l + - (k0 - l))%Z with (- k0)%Z by lia. reflexivity. }
    rewrite X in H. assert (Y : (2#1) ^ (- k) <= (2#1) ^ (- k0)) by (apply pow_mono; lia). split.
    - apply Qle_lt_trans with (frac n d * (2#1) ^ (- k0)); [|apply H].
      rewrite !(Qmult_comm (frac n d)). apply Qmult_le_compat_r; lra.
    - intro K'. assert (k = k0) as -> by lia. apply H. }
  destruct (Z.leb_spec d1 n1) as [C|C].
  - apply (G (l - 52)%Z); [|reflexivity]. intros j ->. replace (- (l - 52 - l))%Z with 52%Z by lia.
    assert (A : 1 <= frac n1 d1).
    { unfold frac. apply Qle_shift_div_l; [exact P1|]. rewrite Qmult_1_l. rewrite <- Zle_Qle. exact C. }
    change ((2#1) ^ 52) with (inject_Z (2 ^ 52)). change (inject_Z (2 ^ 53)) with ((2#1) * inject_Z (2 ^ 52)).
    assert (0 < inject_Z (2 ^ 52)) by reflexivity. split; nra.
  - apply (G (l - 53)%Z); [|reflexivity]. intros j ->. replace (- (l - 53 - l))%Z with 53%Z by lia.
    assert (A : frac n1 d1 < 1).
    { unfold frac. apply Qlt_shift_div_r; [exact P1|]. rewrite Qmult_1_l. rewrite <- Zlt_Qlt. exact C. }
    change ((2#1) ^ 53) with (inject_Z (2 ^ 53)). setoid_replace (inject_Z (2 ^ 52)) with ((1#2) * inject_Z (2 ^ 53)) by reflexivity.
    assert (0 < inject_Z (2 ^ 53)) by reflexivity. split; nra.
Qed.
Lemma nearest_double_eq q q' m k : q == q' -> nearest_double q m k -> nearest_double q' m k.
Proof. intros E [A B]. split; [exact A|]. intros m' k' H. rewrite <- E. now apply B. Qed.
Lemma rounded_eq q q' x : q == q' -> rounded q x -> rounded q' x.
Proof.
  intros E H. destruct x; cbn [rounded] in *.
  - destruct H as [H1 H2]. split; [lra|]. now apply (nearest_double_eq q).
  - destruct H as [H1 H2]. split; [lra|]. now apply (nearest_double_eq q).
  - lra.
Qed.
Lemma below_overflow k w : (k <= 970)%Z -> 0 <= w -> w < inject_Z (2 ^ 53) -> (2#1) ^ k * w < overflow.
Proof.
  intros K W0 W. pose proof (pow_mono k 970 K) as P. pose proof (two_pos k). pose proof (two_pos 970) as T.
  unfold overflow, binary. change (inject_Z (2 ^ 54 - 1)) with ((2#1) * inject_Z (2 ^ 53) - 1).
  set (b := inject_Z (2 ^ 53)) in *. assert (1 < b) by reflexivity. set (t := (2#1) ^ 970) in *. set (u := (2#1) ^ k) in *.
  clearbody t u b. nra.
Qed.
(** Rounding [w] to the significand of a number with the exponent [k]. *)
Lemma finish n d k : (0 < d)%Z -> (0 <= n)%Z -> (-1074 <= k)%Z -> frac n d < inject_Z (2 ^ 53) ->
  ((-1074 < k)%Z -> inject_Z (2 ^ 52) <= frac n d) ->
  rounded ((2#1) ^ k * frac n d)
    (if (nearest n d =? 0)%Z then FZero
     else let '(m, k) := if (nearest n d =? 2 ^ 53)%Z then ((2 ^ 52)%Z, (k + 1)%Z) else (nearest n d, k) in
          if (971 <? k)%Z then FInf else FFin m k).
Proof.
  intros D N K W B. pose proof (nearest_is n d k) as Best. pose proof (near_half n d D N) as Half.
  pose proof (nearest_integer n d (2 ^ 53) D N) as [Up Tie].
  assert (W0 : 0 <= frac n d).
  { unfold frac. apply Qle_shift_div_l; [now apply inj_pos|]. rewrite Qmult_0_l. change 0 with (inject_Z 0). now rewrite <- Zle_Qle. }
  destruct (nearest_spec n d D N) as (M0 & _ & _).
  assert (M1 : (nearest n d <= 2 ^ 53)%Z).
  { rewrite (Qabs_pos (inject_Z (2 ^ 53) - frac n d)) in Up by lra. rewrite Zle_Qle.
    apply Qabs_Qle_condition in Up as [_ Up]. lra. }
  assert (ML : (-1074 < k)%Z -> (2 ^ 52 <= nearest n d)%Z).
  { intro K'. specialize (B K'). pose proof (nearest_integer n d (2 ^ 52) D N) as [Lo _].
    rewrite (Qabs_neg (inject_Z (2 ^ 52) - frac n d)) in Lo by lra. rewrite Zle_Qle.
    apply Qabs_Qle_condition in Lo as [Lo _]. lra. }
  apply Qabs_Qle_condition in Half as [H1 H2].
  set (w := frac n d) in *. set (m := nearest n d) in *.
  destruct (Z.eqb_spec m 0) as [Z0|NZ].
  { assert (k = -1074)%Z as -> by (destruct (Z.eq_dec k (-1074)); [assumption|]; exfalso; assert (2 ^ 52 <= m)%Z by (apply ML; lia); lia).
    split; [apply below_overflow; auto; lia|]. split; [unfold is_double; lia|]. intros m' k' I.
    rewrite <- Z0. now apply Best. }
  destruct (Z.eqb_spec m (2 ^ 53)) as [E|NE].
  - rewrite E in H1, H2. destruct (Z.ltb_spec 971 (k + 1)) as [O|O].
    + cbn [rounded]. unfold overflow, binary. assert (P : (2#1) ^ 971 <= (2#1) ^ k) by (apply pow_mono; lia).
      change 971%Z with (1 + 970)%Z in P. rewrite pow_split in P. change ((2#1) ^ 1) with (2#1) in P.
      change (inject_Z (2 ^ 54 - 1)) with ((2#1) * inject_Z (2 ^ 53) - 1). pose proof (two_pos 970).
      set (b := inject_Z (2 ^ 53)) in *. assert (1 < b) by reflexivity.
      set (t := (2#1) ^ 970) in *. set (u := (2#1) ^ k) in *. clearbody t u b. nra.
    + cbn [rounded]. split; [apply below_overflow; auto; lia|]. split; [unfold is_double; lia|]. intros m' k' I.
      assert (X : binary (2 ^ 52) (k + 1) == binary m k).
      { rewrite E. unfold binary. rewrite pow_split. change ((2#1) ^ 1) with (2#1). change (inject_Z (2 ^ 53)) with (inject_Z (2 ^ 52) * (2#1)). ring. }
      rewrite X. destruct (Best m' k' D N K B I) as [A _]. split; [exact A|]. intros _. right. reflexivity.
  - assert (m < 2 ^ 53)%Z as M2 by lia. destruct (Z.ltb_spec 971 k) as [O|O].
    + cbn [rounded]. specialize (B ltac:(lia)). unfold overflow, binary. assert (P : (2#1) ^ 972 <= (2#1) ^ k) by (apply pow_mono; lia).
      change 972%Z with (2 + 970)%Z in P. rewrite pow_split in P. change ((2#1) ^ 2) with (4#1) in P.
      change (inject_Z (2 ^ 54 - 1)) with ((4#1) * inject_Z (2 ^ 52) - 1). pose proof (two_pos 970).
      set (b := inject_Z (2 ^ 52)) in *. assert (1 < b) by reflexivity.
      set (t := (2#1) ^ 970) in *. set (u := (2#1) ^ k) in *. clearbody t u b. nra.
    + cbn [rounded]. split; [|split; [unfold is_double; lia|intros m' k' I; now apply Best]].
      destruct (Z.eq_dec k 971) as [->|]; [|apply below_overflow; auto; lia].
      assert (W' : w < inject_Z (2 ^ 53) - (1#2)).
      { apply Qnot_le_lt. intro C.
        assert (M3 : inject_Z m <= inject_Z (2 ^ 53 - 1)) by (rewrite <- Zle_Qle; lia).
        change (inject_Z (2 ^ 53 - 1)) with (inject_Z (2 ^ 53) - 1) in M3.
        assert (inject_Z m == inject_Z (2 ^ 53 - 1)) as M4 by (change (inject_Z (2 ^ 53 - 1)) with (inject_Z (2 ^ 53) - 1); lra).
        apply (proj1 (inject_Z_injective _ _)) in M4.
        destruct Tie as [T|T]; [|lia|rewrite M4 in T; discriminate T].
        rewrite (Qabs_neg (inject_Z m - w)), (Qabs_pos (inject_Z (2 ^ 53) - w)) by lra. rewrite M4.
        change (inject_Z (2 ^ 53 - 1)) with (inject_Z (2 ^ 53) - 1).
        rewrite M4 in H1, H2. change (inject_Z (2 ^ 53 - 1)) with (inject_Z (2 ^ 53) - 1) in H1, H2. lra. }
      unfold overflow, binary. change 971%Z with (1 + 970)%Z. rewrite pow_split. change ((2#1) ^ 1) with (2#1).
      change (inject_Z (2 ^ 54 - 1)) with ((2#1) * inject_Z (2 ^ 53) - 1). pose proof (two_pos 970).
      set (b := inject_Z (2 ^ 53)) in *. set (t := (2#1) ^ 970) in *. clearbody t b. nra.
Qed.
Lemma nearest_zero : nearest_double 0 0 (-1074).
Proof.
  split; [unfold is_double; lia|]. intros m' k' _.
  assert (E : binary 0 (-1074) - 0 == 0) by reflexivity. rewrite E. split; [apply Qabs_nonneg|]. intros _. now right.
Qed.
Theorem to_float_rounded c e : (0 <= c)%Z -> rounded (decimal c e) (to_float c e).
Proof.
  intro C. unfold to_float. destruct (Z.eqb_spec c 0) as [->|NZ].
  { apply (rounded_eq 0); [unfold decimal; ring|]. split; [reflexivity|]. apply nearest_zero. }
  destruct (scale_frac 10 e c 1 ltac:(lia) ltac:(lia) C) as [[D [_ N]] E]. specialize (N ltac:(lia)).
  destruct (scale 10 e c 1) as [n d]. cbn [fst snd] in *.
  pose proof (significand_bounds n d N D) as B. cbv zeta in B. set (l := (Z.log2 n - Z.log2 d)%Z) in *.
  destruct (scale 2 (- l) n d) as [n1 d1]. cbn [fst snd] in B.
  set (k := Z.max (-1074) (if (d1 <=? n1)%Z then l - 52 else l - 53)%Z) in *.
  destruct (scale_frac 2 (- k) n d ltac:(lia) D ltac:(lia)) as [[D2 [N2 _]] E2].
  destruct (scale 2 (- k) n d) as [n2 d2]. cbn [fst snd] in *. change (inject_Z 2) with (2#1) in E2.
  rewrite <- E2 in B. destruct B as [B1 B2].
  apply (rounded_eq ((2#1) ^ k * frac n2 d2)).
  - rewrite E2. rewrite Qmult_comm, <- Qmult_assoc, <- pow_split. replace (- k + k)%Z with 0%Z by lia.
    rewrite Qpower_0_r, Qmult_1_r, E. unfold frac, decimal. change (inject_Z 10) with (10#1). field.
  - apply finish; auto. unfold k. lia.
Qed.
