(** Proofs about inference.py (C08, C09) and the text of decimals. *)
From Coq Require Import String Ascii List ZArith NArith Bool Lia QArith.
From Verif Require Import PyStr StrFacts Types Inference ConversionFacts.
Import ListNotations.
Open Scope string_scope.
Open Scope Z_scope.

(** C08 *)
Lemma infer_int_spec z :
  - 2 ^ 63 <= z < 2 ^ 63 ->
  exists s bits, infer_type (LInt z) = Ok (TSimple s) /\ holds (TSimple s) (inject_Z z)
    /\ int_bits s = Some bits
    /\ (s = SInteger \/ s = SBigint)
    /\ (- 2 ^ 31 <= z < 2 ^ 31 <-> s = SInteger).
Proof.
  intro H. cbn [infer_type]. unfold infer_integral.
  destruct ((- 2147483648 <=? z) && (z <=? 2147483647)) eqn:E.
  - apply andb_true_iff in E as [E1 E2]. apply Z.leb_le in E1, E2.
    exists SInteger, 32. split; [reflexivity|]. split.
    { exists 32, z. split; [reflexivity|]. split; [cbn; lia | reflexivity]. }
    split; [reflexivity|]. split; [left; reflexivity|]. split; [reflexivity | intros _; cbn; lia].
  - exists SBigint, 64. split; [reflexivity|]. split.
    { exists 64, z. split; [reflexivity|]. split; [exact H | reflexivity]. }
    split; [reflexivity|]. split; [right; reflexivity|]. split; [|discriminate].
    intros H'. exfalso. apply andb_false_iff in E as [E|E]; apply Z.leb_gt in E; cbn in H'; lia.
Qed.

(** The number a [Decimal] stands for. *)
Definition dec_value (d : dec) : Q :=
  (inject_Z (if dneg d then - Z.of_N (dcoef d) else Z.of_N (dcoef d))
   * (if 0 <=? dexp d then inject_Z (10 ^ dexp d) else / inject_Z (10 ^ (- dexp d))))%Q.

(** ** The text *)
Lemma zlen_app a b : zlen (a ++ b) = zlen a + zlen b.
Proof. unfold zlen; rewrite slen_app; lia. Qed.
Lemma zlen_zeros n : zlen (zeros n) = Z.of_nat n.
Proof. unfold zlen, zeros. f_equal. induction n as [|n IH]; cbn; [|f_equal]; auto. Qed.
Lemma take_drop n s : take n s ++ drop n s = s.
Proof.
  revert s; induction n as [|n IH]; intros s; [reflexivity|]. destruct s as [|c s]; [reflexivity|].
  cbn. rewrite IH. reflexivity.
Qed.
Lemma take_length n s : (n <= String.length s)%nat -> String.length (take n s) = n.
Proof.
  revert s; induction n as [|n IH]; intros s H; [reflexivity|]. destruct s as [|c s]; [cbn in H; lia|].
  cbn in *. rewrite IH; lia.
Qed.
Lemma drop_length n s : String.length (drop n s) = (String.length s - n)%nat.
Proof.
  revert s; induction n as [|n IH]; intros s; [cbn; lia|]. destruct s as [|c s]; [reflexivity|].
  cbn. apply IH.
Qed.
Lemma zlen_str_of_N n : 0 < zlen (str_of_N n).
Proof. destruct (str_of_N_cons n) as (c & r & -> & _). unfold zlen; cbn [String.length]; lia. Qed.
Lemma str_of_N_bound n : Z.of_N n < 10 ^ zlen (str_of_N n).
Proof.
  assert (G : forall s, str_forall is_digit s = true -> (N_of_str s < 10 ^ N.of_nat (String.length s))%N).
  { induction s as [|c s IH]; intro H; [cbn; lia|]. cbn [str_forall] in H. apply andb_true_iff in H as [Hc Hs].
    change (N_of_str (String c s)) with (val_acc (10 * 0 + digit_val c) s). rewrite val_acc_lin.
    specialize (IH Hs). pose proof (digit_val_lt c Hc). cbn [String.length].
    rewrite Nat2N.inj_succ, N.pow_succ_r'. nia. }
  specialize (G (str_of_N n) (str_of_N_digits n)). rewrite N_of_str_of_N in G.
  unfold zlen. apply N2Z.inj_lt in G. rewrite N2Z.inj_pow in G.
  rewrite nat_N_Z in G. exact G.
Qed.

(** Is there an exponent part in the text? *)
Lemma has_char_app c a b : has_char c (a ++ b) = (has_char c a || has_char c b)%bool.
Proof. apply str_exists_app. Qed.
Lemma digits_no_char c s : is_digit c = false -> str_forall is_digit s = true -> has_char c s = false.
Proof.
  intros Hc. induction s as [|d s IH]; intro H; [reflexivity|]. cbn [str_forall] in H.
  apply andb_true_iff in H as [Hd Hs]. unfold has_char in *. cbn [str_exists]. rewrite (IH Hs), orb_false_r.
  destruct (Ascii.eqb_spec c d) as [->|]; [congruence | reflexivity].
Qed.
Lemma zeros_digits n : str_forall is_digit (zeros n) = true.
Proof. induction n; cbn; auto. Qed.
Lemma take_digits n s : str_forall is_digit s = true -> str_forall is_digit (take n s) = true.
Proof.
  revert s; induction n as [|n IH]; intros s H; [reflexivity|]. destruct s as [|c s]; [reflexivity|].
  cbn in *. apply andb_true_iff in H as [H1 H2]. rewrite H1. apply IH, H2.
Qed.
Lemma drop_digits n s : str_forall is_digit s = true -> str_forall is_digit (drop n s) = true.
Proof.
  revert s; induction n as [|n IH]; intros s H; [exact H|]. destruct s as [|c s]; [reflexivity|].
  cbn in *. apply andb_true_iff in H as [H1 H2]. auto.
Qed.

Definition plain (d : dec) : Prop := dexp d <= 0 /\ -6 < dexp d + zlen (str_of_N (dcoef d)).
Lemma no_exponent d : has_char "E" (dec_str d) = false -> plain d.
Proof.
  unfold dec_str, plain. set (int := str_of_N (dcoef d)).
  destruct ((dexp d <=? 0) && (-6 <? dexp d + zlen int)) eqn:E.
  - apply andb_true_iff in E as [E1 E2]. apply Z.leb_le in E1. apply Z.ltb_lt in E2. auto.
  - intro H. exfalso. rewrite !has_char_app in H. apply orb_false_iff in H as [_ H].
    apply orb_false_iff in H as [_ H].
    assert (N : dexp d + zlen int - 1 <> 0).
    { pose proof (zlen_str_of_N (dcoef d)) as L; fold int in L. apply andb_false_iff in E as [E|E].
      - apply Z.leb_gt in E; lia.
      - apply Z.ltb_ge in E; lia. }
    apply Z.eqb_neq in N. rewrite N in H. discriminate H.
Qed.

(** The text of a decimal without exponent part. *)
Lemma dec_str_plain d : plain d ->
  let int := str_of_N (dcoef d) in
  let k := Z.to_nat (- dexp d) in
  let sign := if dneg d then "-" else "" in
  dec_str d =
    if dexp d =? 0 then sign ++ int
    else if (String.length int <=? k)%nat then sign ++ "0." ++ zeros (k - String.length int) ++ int
    else sign ++ take (String.length int - k) int ++ "." ++ drop (String.length int - k) int.
Proof.
  intros [H1 H2] int k sign. unfold dec_str. fold int sign in H2 |- *.
  replace ((dexp d <=? 0) && (-6 <? dexp d + zlen int)) with true
    by (symmetry; apply andb_true_iff; split; [apply Z.leb_le | apply Z.ltb_lt]; assumption).
  replace (dexp d + zlen int - (dexp d + zlen int) =? 0) with true by (symmetry; apply Z.eqb_eq; lia).
  rewrite sapp_nil_r.
  pose proof (zlen_str_of_N (dcoef d)) as L. fold int in L. unfold zlen in *.
  destruct (Z.eqb_spec (dexp d) 0) as [E|E].
  - rewrite E. replace (0 + Z.of_nat (String.length int) <=? 0) with false by (symmetry; apply Z.leb_gt; lia).
    replace (Z.of_nat (String.length int) <=? 0 + Z.of_nat (String.length int)) with true by (symmetry; apply Z.leb_le; lia).
    replace (Z.to_nat (0 + Z.of_nat (String.length int) - Z.of_nat (String.length int))) with 0%nat by lia.
    cbn [zeros repeat_char]. rewrite sapp_nil_r. reflexivity.
  - destruct (Nat.leb_spec (String.length int) k) as [G|G].
    + replace (dexp d + Z.of_nat (String.length int) <=? 0) with true by (symmetry; apply Z.leb_le; lia).
      replace (Z.to_nat (- (dexp d + Z.of_nat (String.length int)))) with (k - String.length int)%nat by lia.
      reflexivity.
    + replace (dexp d + Z.of_nat (String.length int) <=? 0) with false by (symmetry; apply Z.leb_gt; lia).
      replace (Z.of_nat (String.length int) <=? dexp d + Z.of_nat (String.length int)) with false by (symmetry; apply Z.leb_gt; lia).
      replace (Z.to_nat (dexp d + Z.of_nat (String.length int))) with (String.length int - k)%nat by lia.
      reflexivity.
Qed.

Lemma index_of_app c a b : has_char c a = false -> 
  index_of c (a ++ b) = match index_of c b with None => None | Some n => Some (String.length a + n)%nat end.
Proof.
  induction a as [|d a IH]; intro H; cbn [append index_of String.length].
  - destruct (index_of c b); reflexivity.
  - unfold has_char in H. cbn [str_exists] in H. apply orb_false_iff in H as [Hd Ha]. rewrite Hd.
    rewrite (IH Ha). destruct (index_of c b); reflexivity.
Qed.
Lemma index_of_none c a : has_char c a = false -> index_of c a = None.
Proof. intro H. rewrite <- (sapp_nil_r a), index_of_app by exact H. reflexivity. Qed.
Lemma sign_no_dot (b : bool) : has_char "." (if b then "-" else "") = false.
Proof. destruct b; reflexivity. Qed.

(** C09: exact scale, and the value fits. *)
Lemma infer_decimal_plain d p s :
  plain d -> infer_type (LDec d) = Ok (TDecimal p s) ->
  s = - dexp d /\ holds (TDecimal p s) (dec_value d).
Proof.
  intros Hp. assert (Hp' := Hp). destruct Hp' as [H1 H2]. cbn [infer_type]. unfold infer_decimal.
  rewrite (dec_str_plain d Hp). set (int := str_of_N (dcoef d)).
  set (k := Z.to_nat (- dexp d)). set (sg := if dneg d then "-" else "").
  pose proof (str_of_N_bound (dcoef d)) as B. fold int in B.
  pose proof (str_of_N_digits (dcoef d)) as D. fold int in D.
  assert (Sg : has_char "." sg = false) by (unfold sg; destruct (dneg d); reflexivity).
  assert (Lsg : 0 <= zlen sg) by (unfold zlen; lia).
  (* it suffices to bound the digits *)
  assert (Goal2 : forall p s, s = - dexp d -> zlen int <= p -> holds (TDecimal p s) (dec_value d)).
  { intros p' s' -> L. unfold dec_value.
    exists (if dneg d then - Z.of_N (dcoef d) else Z.of_N (dcoef d)). split.
    - replace (Z.abs _) with (Z.of_N (dcoef d)) by (destruct (dneg d); lia).
      eapply Z.lt_le_trans; [exact B|]. apply Z.pow_le_mono_r; lia.
    - destruct (Z.leb_spec 0 (dexp d)) as [G|G].
      + replace (dexp d) with 0 by lia. cbn [Z.opp]. change (inject_Z (10 ^ 0)) with 1%Q. ring.
      + field. intro E. unfold Qeq, inject_Z in E. cbn in E. rewrite Z.mul_1_r in E.
        pose proof (Z.pow_pos_nonneg 10 (- dexp d)). lia. }
  destruct (Z.eqb_spec (dexp d) 0) as [E|E].
  - rewrite index_of_none.
    2: { rewrite has_char_app, Sg. apply digits_no_char; [reflexivity | exact D]. }
    intro X. apply decimal_inv in X as [X _]. injection X as -> ->.
    split; [lia|]. apply Goal2; [lia|]. rewrite zlen_app; lia.
  - destruct (Nat.leb_spec (String.length int) k) as [G|G].
    + set (T := sg ++ "0." ++ zeros (k - String.length int) ++ int).
      assert (Ei : index_of "." T = Some (String.length sg + 1)%nat)
        by (unfold T; rewrite index_of_app by exact Sg; reflexivity).
      assert (Lt : zlen T = zlen sg + 2 + Z.of_nat k).
      { unfold T. rewrite !zlen_app, zlen_zeros. change (zlen "0.") with 2. unfold zlen. lia. }
      rewrite Ei, Lt. intro X. apply decimal_inv in X as [X _]. injection X as -> ->.
      split; [unfold zlen in *; lia|]. apply Goal2; unfold zlen in *; lia.
    + set (T := sg ++ take (String.length int - k) int ++ "." ++ drop (String.length int - k) int).
      assert (Ei : index_of "." T = Some (String.length sg + (String.length int - k))%nat).
      { unfold T. rewrite index_of_app by exact Sg. rewrite index_of_app.
        - cbn [append index_of Ascii.eqb Bool.eqb]. rewrite take_length by lia. f_equal. lia.
        - apply digits_no_char; [reflexivity | apply take_digits; exact D]. }
      assert (Lt : zlen T = zlen sg + zlen int + 1).
      { unfold T. rewrite !zlen_app. unfold zlen. rewrite take_length, drop_length by lia. cbn [String.length]. lia. }
      rewrite Ei, Lt. intro X. apply decimal_inv in X as [X _]. injection X as -> ->.
      split; [unfold zlen in *; lia|]. apply Goal2; unfold zlen in *; lia.
Qed.
Lemma infer_decimal_holds d p s :
  has_char "E" (dec_str d) = false -> infer_type (LDec d) = Ok (TDecimal p s) ->
  s = - dexp d /\ holds (TDecimal p s) (dec_value d).
Proof. intro H; apply infer_decimal_plain, no_exponent, H. Qed.
