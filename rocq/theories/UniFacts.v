(** Reading unicode strings (for C64). *)
From Coq Require Import String Ascii List Bool Arith NArith ZArith Lia.
From Verif Require Import PyStr StrFacts UniText Lexer LexFacts TextFacts.
Import ListNotations.
Open Scope nat_scope.
Open Scope string_scope.

(** * Stripping *)
Lemma rstrip_set_end f s c : f c = false -> rstrip_set f (s ++ String c "") = s ++ String c "".
Proof.
  intro F. induction s as [|d s IH]; cbn [append rstrip_set].
  - now rewrite F.
  - rewrite IH. destruct s; reflexivity.
Qed.
Lemma uni_body w : has_char squote w = false ->
  strip squote (strip_set (fun c => (Ascii.eqb c "U" || Ascii.eqb c "&")%bool) ("U&'" ++ w ++ "'")) = w.
Proof.
  intro H. unfold strip_set. cbn [append lstrip_set Ascii.eqb Bool.eqb orb].
  change (String "'" (w ++ "'")) with (("'" ++ w) ++ String squote "").
  rewrite rstrip_set_end by reflexivity. unfold strip. cbn [append lstrip].
  change (Ascii.eqb squote "'") with true. cbn iota.
  assert (N : forall t, w <> t ++ String squote "").
  { intros t ->. clear - H. unfold has_char in H. induction t as [|c t IH]; cbn [append str_exists] in H.
    - rewrite Ascii.eqb_refl in H. discriminate.
    - apply orb_false_iff in H as [_ H]. auto. }
  destruct w as [|c w]; [reflexivity|]. cbn [append lstrip]. unfold has_char in H. cbn [str_exists] in H.
  apply orb_false_iff in H as [H _]. rewrite H.
  change (String c (w ++ String squote "")) with (String c w ++ String squote "").
  rewrite rstrip_last. now apply rstrip_same.
Qed.

(** * Replacing one character *)
Fixpoint spread (e : ascii) (s : string) : string :=
  match s with
  | "" => ""
  | String c s' => (if Ascii.eqb e c then "\u" else String c "") ++ spread e s'
  end.
Lemma replace_fuel_spread e n : forall s, String.length s <= n -> replace_fuel n (String e "") "\u" s = spread e s.
Proof.
  induction n as [|n IH]; intros [|c s] L; try reflexivity; [cbn in L; lia|].
  cbn [replace_fuel after_prefix spread]. cbn in L. destruct (Ascii.eqb e c); rewrite IH by lia; reflexivity.
Qed.
Lemma replace_spread e s : replace (String e "") "\u" s = spread e s.
Proof. unfold replace. now apply replace_fuel_spread. Qed.
Lemma spread_app e a b : spread e (a ++ b) = spread e a ++ spread e b.
Proof. induction a as [|c a IH]; [reflexivity|]. cbn [append spread]. now rewrite IH, sapp_assoc. Qed.

(** * Decoding *)
Lemma decode_plain n c s : c <> "\"%char ->
  decode_fuel (S n) (String c s) = let* t := decode_fuel n s in Ok (String c t).
Proof. intro H. cbn [decode_fuel]. destruct (Ascii.eqb_spec c "\"); [contradiction|]. reflexivity. Qed.
Lemma decode_code n s :
  decode_fuel (S n) ("\u" ++ s)
  = match hexes 4 0 s with
    | Some (v, r) => let* a := char_of v in let* t := decode_fuel n r in Ok (String a t)
    | None => Err UnicodeDecodeError
    end.
Proof. reflexivity. Qed.

(** * Tokens *)
Lemma has_char_paired q s : has_char q s = false -> paired q s = true.
Proof.
  unfold has_char. induction s as [|c s IH]; [reflexivity|]. cbn [str_exists paired]. intros [H1 H2]%orb_false_iff.
  destruct (Ascii.eqb_spec c q) as [->|]; [rewrite Ascii.eqb_refl in H1; discriminate|]. now apply IH.
Qed.
Lemma lex_uni w k : paired squote w = true -> not_first squote k = true ->
  lex ("U&'" ++ w ++ String squote k) = TUniString ("U&'" ++ w ++ "'") :: lex k.
Proof.
  intros P K. cbn [append]. rewrite lex_cons. unfold next_token.
  change (is_ws "U") with false. change (Ascii.eqb "U" squote) with false. change (Ascii.eqb "U" dquote) with false.
  change (Ascii.eqb "U" "`") with false. change (is_digit "U") with false. change (is_letter "U" || _)%bool with true.
  cbn iota. change (span is_word (String "U" (String "&" (String "'" (w ++ String squote k)))))
    with ("U", String "&" (String "'" (w ++ String squote k))). cbn iota beta zeta.
  change (String.eqb "U" "U") with true. cbn iota. change (Ascii.eqb "&" "&" && Ascii.eqb "'" squote)%bool with true. cbn iota.
  rewrite (scan_quoted_spec squote (String.length w)) by auto. reflexivity.
Qed.
