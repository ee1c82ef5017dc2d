(** Facts about strings and decimal texts. *)
From Coq Require Import String Ascii List ZArith NArith Bool Lia Arith.
From Verif Require Import PyStr.
Import ListNotations.
Open Scope string_scope.

Lemma sapp_assoc (a b c : string) : (a ++ b) ++ c = a ++ (b ++ c).
Proof. induction a as [|x a IH]; cbn; [reflexivity | now rewrite IH]. Qed.
Lemma sapp_nil_r (a : string) : a ++ "" = a.
Proof. induction a as [|x a IH]; cbn; [reflexivity | now rewrite IH]. Qed.
Lemma slen_app (a b : string) : String.length (a ++ b) = String.length a + String.length b.
Proof. induction a as [|x a IH]; cbn; [reflexivity | now rewrite IH]. Qed.
Lemma sapp_inj_l (a b c : string) : a ++ b = a ++ c -> b = c.
Proof. induction a as [|x a IH]; cbn; intro H; [exact H | injection H; auto]. Qed.

Lemma str_forall_app f a b : str_forall f (a ++ b) = (str_forall f a && str_forall f b)%bool.
Proof. induction a as [|x a IH]; cbn; [reflexivity | rewrite IH, andb_assoc; reflexivity]. Qed.
Lemma str_exists_app f a b : str_exists f (a ++ b) = (str_exists f a || str_exists f b)%bool.
Proof. induction a as [|x a IH]; cbn; [reflexivity | rewrite IH, orb_assoc; reflexivity]. Qed.
Lemma str_forall_impl (f g : ascii -> bool) s :
  (forall c, f c = true -> g c = true) -> str_forall f s = true -> str_forall g s = true.
Proof.
  intros H; induction s as [|c s IH]; cbn; [auto|].
  rewrite !andb_true_iff; intros [Hc Hs]; auto.
Qed.

(** All characters: a finite domain. *)
Definition all_ascii : list ascii := map (fun n => ascii_of_nat n) (seq 0 256).
Lemma all_ascii_complete c : In c all_ascii.
Proof.
  unfold all_ascii; apply in_map_iff; exists (nat_of_ascii c); split.
  - apply ascii_nat_embedding.
  - apply in_seq; pose proof (nat_ascii_bounded c); lia.
Qed.
Lemma all_ascii_forall (P : ascii -> bool) :
  forallb P all_ascii = true -> forall c, P c = true.
Proof. intros H c; rewrite forallb_forall in H; apply H, all_ascii_complete. Qed.

(** Prove a boolean fact for every character by running over all of them. *)
Ltac by_all_ascii :=
  match goal with
  | |- forall c : ascii, @?P c = true =>
      refine (all_ascii_forall P _); vm_compute; reflexivity
  end.

Lemma digit_is_word : forall c, is_digit c = true -> is_word c = true.
Proof.
  assert (H : forall c, implb (is_digit c) (is_word c) = true) by by_all_ascii.
  intros c Hc; specialize (H c); rewrite Hc in H; exact H.
Qed.

(** * Decimal digits *)

Lemma code_digit_char d : (d < 10)%N -> code (digit_char d) = (48 + d)%N.
Proof. intro H; unfold code, digit_char; rewrite N_ascii_embedding; lia. Qed.
Lemma digit_char_is_digit d : (d < 10)%N -> is_digit (digit_char d) = true.
Proof.
  intro H; unfold is_digit, in_range; rewrite code_digit_char by lia.
  apply andb_true_iff; split; apply N.leb_le; lia.
Qed.
Lemma digit_val_char d : (d < 10)%N -> digit_val (digit_char d) = d.
Proof. intro H; unfold digit_val; rewrite code_digit_char by lia; lia. Qed.
Lemma is_digit_spec c : is_digit c = true -> (48 <= code c <= 57)%N.
Proof.
  unfold is_digit, in_range; rewrite andb_true_iff, !N.leb_le; lia.
Qed.
Lemma digit_val_lt c : is_digit c = true -> (digit_val c < 10)%N.
Proof. intro H; apply is_digit_spec in H; unfold digit_val; lia. Qed.
Lemma digit_char_val c : is_digit c = true -> digit_char (digit_val c) = c.
Proof.
  intro H; apply is_digit_spec in H; unfold digit_char, digit_val, code in *.
  replace (48 + (N_of_ascii c - 48))%N with (N_of_ascii c) by lia.
  apply ascii_N_embedding.
Qed.

Lemma size_nat_bound n : (n < 2 ^ N.of_nat (N.size_nat n))%N.
Proof.
  destruct n as [|p]; [cbn; lia|].
  cbn [N.size_nat].
  induction p as [p IH|p IH|].
  - cbn [Pos.size_nat]. rewrite Nat2N.inj_succ, N.pow_succ_r'. lia.
  - cbn [Pos.size_nat]. rewrite Nat2N.inj_succ, N.pow_succ_r'. lia.
  - cbn; lia.
Qed.

Lemma pow2_le_pow10 k : (2 ^ k <= 10 ^ k)%N.
Proof. apply N.pow_le_mono_l; lia. Qed.

(** Fuel is sufficient: the number of decimal digits is below the bit size. *)
Lemma fuel_enough n : (n < 10 ^ N.of_nat (S (N.size_nat n)))%N.
Proof.
  pose proof (size_nat_bound n); pose proof (pow2_le_pow10 (N.of_nat (N.size_nat n))).
  rewrite Nat2N.inj_succ, N.pow_succ_r'. lia.
Qed.

Lemma val_acc_lin acc s : val_acc acc s = (acc * 10 ^ N.of_nat (String.length s) + N_of_str s)%N.
Proof.
  unfold N_of_str; revert acc; induction s as [|c s IH]; intro acc; cbn [val_acc String.length].
  - cbn; lia.
  - rewrite IH, (IH (10 * 0 + digit_val c)%N), Nat2N.inj_succ, N.pow_succ_r'.
    lia.
Qed.

Lemma val_acc_app acc a b : val_acc acc (a ++ b) = val_acc (val_acc acc a) b.
Proof. revert acc; induction a as [|c a IH]; intro acc; cbn; [reflexivity | apply IH]. Qed.
Lemma N_of_str_app a b :
  N_of_str (a ++ b) = (N_of_str a * 10 ^ N.of_nat (String.length b) + N_of_str b)%N.
Proof. unfold N_of_str at 1; rewrite val_acc_app; apply val_acc_lin. Qed.

Lemma pr_N_app f n acc : pr_N f n acc = pr_N f n "" ++ acc.
Proof.
  revert n acc; induction f as [|f IH]; intros n acc; cbn [pr_N]; [reflexivity|].
  destruct (N.eqb (n / 10) 0); [reflexivity|].
  rewrite IH, (IH _ (String _ "")), sapp_assoc; reflexivity.
Qed.

(** Digits of [n] as a non-empty digit text without leading zero. *)
Lemma pr_N_spec f n :
  (n < 10 ^ N.of_nat f)%N -> f <> O ->
  str_forall is_digit (pr_N f n "") = true
  /\ N_of_str (pr_N f n "") = n
  /\ (n < 10 ^ N.of_nat (String.length (pr_N f n "")))%N
  /\ (n <> 0 -> 10 ^ N.of_nat (String.length (pr_N f n "") - 1) <= n)%N
  /\ (exists c r, pr_N f n "" = String c r /\ is_digit c = true
                  /\ (digit_val c = 0%N -> n = 0%N)).
Proof.
  revert n; induction f as [|f IH]; intros n Hn Hf; [congruence|].
  cbn [pr_N].
  assert (Hd : (n mod 10 < 10)%N) by (apply N.mod_lt; lia).
  assert (Hdm : n = (10 * (n / 10) + n mod 10)%N) by (apply N.div_mod; lia).
  destruct (N.eqb_spec (n / 10) 0) as [E|E].
  - assert (Hn10 : (n mod 10 = n)%N) by lia. rewrite Hn10 in *.
    cbn [str_forall N_of_str val_acc String.length].
    rewrite digit_char_is_digit by lia.
    unfold N_of_str; cbn [val_acc]; rewrite digit_val_char by lia.
    split; [reflexivity|]. split; [lia|]. split; [cbn; lia|].
    split; [intro; cbn; lia|].
    exists (digit_char n), "". split; [reflexivity|].
    split; [apply digit_char_is_digit; lia|]. rewrite digit_val_char by lia. auto.
  - assert (Hf0 : f <> O).
    { intro; subst f. cbn in Hn. apply E. apply N.div_small. lia. }
    assert (Hlt : (n / 10 < 10 ^ N.of_nat f)%N).
    { apply N.div_lt_upper_bound; [lia|]. rewrite Nat2N.inj_succ, N.pow_succ_r' in Hn. lia. }
    destruct (IH _ Hlt Hf0) as (H1 & H2 & H3 & H4 & c & r & H5 & H6 & H7).
    rewrite pr_N_app.
    rewrite str_forall_app, H1. cbn [str_forall].
    rewrite digit_char_is_digit by lia.
    rewrite N_of_str_app, H2. cbn [String.length].
    change (N_of_str (String (digit_char (n mod 10)) "")) with (10 * 0 + digit_val (digit_char (n mod 10)))%N.
    rewrite digit_val_char by lia.
    rewrite slen_app; cbn [String.length].
    set (L := String.length (pr_N f (n / 10) "")) in *.
    rewrite Nat.add_1_r.
    assert (HL : L <> O) by (unfold L; rewrite H5; cbn; lia).
    split; [reflexivity|]. split; [cbn; lia|].
    split; [rewrite Nat2N.inj_succ, N.pow_succ_r'; lia|].
    split.
    + intros _. replace (S L - 1) with (S (L - 1)) by lia.
      rewrite Nat2N.inj_succ, N.pow_succ_r'. specialize (H4 E). clear - H4 Hdm. apply (N.mul_le_mono_l _ _ 10) in H4. remember (10 * 10 ^ N.of_nat (L - 1))%N as P. clear HeqP. pose proof (N.le_0_l (n mod 10)). lia.
    + exists c, (r ++ String (digit_char (n mod 10)) ""). rewrite H5. split; [reflexivity|].
      split; [exact H6|]. intro Hz. apply H7 in Hz. congruence.
Qed.

Lemma str_of_N_spec n :
  str_forall is_digit (str_of_N n) = true
  /\ N_of_str (str_of_N n) = n
  /\ (n < 10 ^ N.of_nat (String.length (str_of_N n)))%N
  /\ (n <> 0 -> 10 ^ N.of_nat (String.length (str_of_N n) - 1) <= n)%N
  /\ (exists c r, str_of_N n = String c r /\ is_digit c = true
                  /\ (digit_val c = 0%N -> n = 0%N)).
Proof. apply pr_N_spec; [apply fuel_enough | discriminate]. Qed.

Lemma str_of_N_digits n : str_forall is_digit (str_of_N n) = true.
Proof. apply str_of_N_spec. Qed.
Lemma N_of_str_of_N n : N_of_str (str_of_N n) = n.
Proof. apply str_of_N_spec. Qed.
Lemma str_of_N_cons n : exists c r, str_of_N n = String c r /\ is_digit c = true.
Proof. destruct (str_of_N_spec n) as (_ & _ & _ & _ & c & r & H & H' & _); eauto. Qed.
Lemma str_of_N_inj a b : str_of_N a = str_of_N b -> a = b.
Proof. intro H; rewrite <- (N_of_str_of_N a), H; apply N_of_str_of_N. Qed.

Lemma str_of_Z_nonneg z : (0 <= z)%Z -> str_of_Z z = str_of_N (Z.to_N z).
Proof. destruct z; cbn; [reflexivity | reflexivity | lia]. Qed.
