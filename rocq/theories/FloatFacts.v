(** The text of a float has one of three forms (for C58 and C64). *)
From Coq Require Import String Ascii List Bool Arith NArith ZArith Lia.
From Verif Require Import PyStr StrFacts Inference Floats ReadTokens ReadShape.
Import ListNotations.
Open Scope nat_scope.
Open Scope string_scope.

Lemma digits_app a b : digits_only a -> digits_only b -> digits_only (a ++ b).
Proof.
  unfold digits_only. intros A B. induction a as [|c a IH]; [exact B|]. cbn [append str_forall] in *.
  apply andb_true_iff in A as [-> A]. now rewrite IH.
Qed.
Lemma digits_zeros n : digits_only (zeros n).
Proof. unfold digits_only, zeros. induction n as [|n IH]; [reflexivity|]. cbn [repeat_char str_forall]. now rewrite IH. Qed.
Lemma digits_take n : forall s, digits_only s -> digits_only (take n s).
Proof.
  unfold digits_only. induction n as [|n IH]; intros [|c s] H; try reflexivity. cbn [take str_forall] in *.
  apply andb_true_iff in H as [-> H]. now rewrite IH.
Qed.
Lemma digits_drop n : forall s, digits_only s -> digits_only (drop n s).
Proof.
  unfold digits_only. induction n as [|n IH]; intros [|c s] H; try reflexivity; [exact H|]. cbn [drop str_forall] in *.
  apply andb_true_iff in H as [_ H]. now apply IH.
Qed.
Lemma digits_rstrip c s : digits_only s -> digits_only (rstrip c s).
Proof.
  unfold digits_only. induction s as [|d s IH]; [reflexivity|]. cbn [str_forall rstrip]. intros [H1 H2]%andb_true_iff.
  specialize (IH H2). destruct (rstrip c s) as [|x y]; [destruct (Ascii.eqb c d)|];
    cbn [str_forall] in *; rewrite ?H1; auto.
Qed.
Lemma take_some n s : 0 < n -> s <> "" -> take n s <> "".
Proof. destruct n; [lia|]. destruct s; [congruence|]. discriminate. Qed.
Lemma drop_some n s : n < String.length s -> drop n s <> "".
Proof. revert s. induction n as [|n IH]; intros [|c s] H; cbn in *; try lia; [discriminate|]. apply IH. lia. Qed.
Lemma app_some a b : b <> "" -> a ++ b <> "".
Proof. destruct a; [auto|discriminate]. Qed.

Lemma significant_digits c : some_digits (significant c).
Proof.
  unfold significant. pose proof (digits_rstrip "0" _ (str_of_N_digits c)) as H.
  destruct (rstrip "0" (str_of_N c)); [split; [discriminate|reflexivity]|]. split; [discriminate|exact H].
Qed.
Lemma pad2_digits n : some_digits (pad2 (str_of_N n)).
Proof.
  pose proof (str_of_N_digits n) as H. destruct (str_of_N_cons n) as (c & r & E & _). rewrite E in *.
  destruct r; cbn [pad2]; (split; [discriminate|]); unfold digits_only; cbn [append str_forall] in *; exact H.
Qed.
Lemma body_text sign body : (sign = "" \/ sign = "-") ->
  body = "inf"
  \/ (exists i f, body = i ++ "." ++ f /\ some_digits i /\ some_digits f)
  \/ (exists i f e x, body = i ++ f ++ "e" ++ e ++ x /\ some_digits i
      /\ (f = "" \/ exists g, f = "." ++ g /\ some_digits g)
      /\ (e = "+" \/ e = "-") /\ some_digits x) -> float_text (sign ++ body).
Proof. intros S B. exists sign, body. auto. Qed.
Lemma place_point_text ds pt : some_digits ds ->
  (exists i f, place_point ds pt = i ++ "." ++ f /\ some_digits i /\ some_digits f)
  \/ (exists i f e x, place_point ds pt = i ++ f ++ "e" ++ e ++ x /\ some_digits i
      /\ (f = "" \/ exists g, f = "." ++ g /\ some_digits g)
      /\ (e = "+" \/ e = "-") /\ some_digits x).
Proof.
  intros [N D]. unfold place_point. destruct ((pt <=? -4) || (16 <? pt))%Z.
  - right. exists (take 1 ds), (match drop 1 ds with "" => "" | f => "." ++ f end), (if (pt - 1 <? 0)%Z then "-" else "+"),
      (pad2 (str_of_N (Z.abs_N (pt - 1)))).
    split; [reflexivity|]. repeat apply conj; try apply pad2_digits.
    + apply take_some; [lia|exact N].
    + now apply digits_take.
    + pose proof (digits_drop 1 ds D) as F. destruct (drop 1 ds) as [|c f]; [now left|]. right. eexists.
      split; [reflexivity|]. split; [discriminate|exact F].
    + destruct (pt - 1 <? 0)%Z; auto.
  - left. destruct (Z.leb_spec pt 0).
    + exists "0", (zeros (Z.to_nat (- pt)) ++ ds). split; [reflexivity|]. split; [split; [discriminate|reflexivity]|].
      split; [now apply app_some|]. apply digits_app; [apply digits_zeros|exact D].
    + destruct (Z.leb_spec (zlen ds) pt).
      * exists (ds ++ zeros (Z.to_nat (pt - zlen ds))), "0". split; [|split; [split|split; [discriminate|reflexivity]]].
        -- now rewrite sapp_assoc.
        -- destruct ds; [congruence|discriminate].
        -- apply digits_app; [exact D|apply digits_zeros].
      * exists (take (Z.to_nat pt) ds), (drop (Z.to_nat pt) ds). split; [reflexivity|]. unfold zlen in *.
        split; (split; [|now apply digits_take || now apply digits_drop]).
        -- apply take_some; [lia|exact N].
        -- apply drop_some. lia.
Qed.
Theorem float_text_ok neg s : float_text (float_text_of neg s).
Proof.
  unfold float_text_of. apply body_text; [destruct neg; auto|]. unfold float_repr.
  destruct (float_of_text s) as [|m k|]; [right; left|right|now left].
  - exists "0", "0". repeat split; discriminate.
  - destruct (scale 2 k m 1) as [n d]. destruct (shortest _ _ _ _ _) as [c q]. apply place_point_text, significant_digits.
Qed.
