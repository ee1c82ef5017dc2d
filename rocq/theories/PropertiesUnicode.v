(** C64: unicode strings, treeno/builder/convert.py 738-755. *)
From Coq Require Import String Ascii List Bool ZArith NArith Arith Lia.
From Verif Require Import PyStr StrFacts Printer Types Inference UniText Lexer LexFacts TextFacts TypeParser Functions Ast Sql
  Parser PropertiesLiterals UniFacts.
Import ListNotations.
Open Scope nat_scope.
Open Scope string_scope.
Open Scope list_scope.

(** * What is written *)

(** A character that stands for itself, or one written as its code: the escape character and four
    hexadecimal digits, each in either case. *)
Inductive letter := Plain (c : ascii) | Coded (c : ascii) (up1 up2 : bool).
Definition hex_digits (up : bool) : list ascii :=
  list_ascii_of_string (if up then "0123456789ABCDEF" else "0123456789abcdef").
Definition hex_digit (up : bool) (d : nat) : ascii := nth d (hex_digits up) "0"%char.
Definition hex_of (c : ascii) (up1 up2 : bool) : string :=
  "00" ++ String (hex_digit up1 (nat_of_ascii c / 16)) (String (hex_digit up2 (nat_of_ascii c mod 16)) "").
Definition spelt (e : ascii) (x : letter) : string :=
  match x with Plain c => String c "" | Coded c u v => String e (hex_of c u v) end.
Fixpoint spell (e : ascii) (l : list letter) : string :=
  match l with [] => "" | x :: l' => (spelt e x ++ spell e l')%string end.
(** What it stands for. *)
Definition letter_of (x : letter) : ascii := match x with Plain c | Coded c _ _ => c end.
Definition spoken (l : list letter) : string := string_of_list_ascii (map letter_of l).

(** An escape character is neither a quote nor a hexadecimal digit; quotes, backslashes and the
    escape character have to be written as codes. *)
Definition escape_ok (e : ascii) : Prop := e <> squote /\ forall up, ~ In e (hex_digits up).
Definition letter_ok (e : ascii) (x : letter) : Prop :=
  match x with Plain c => c <> squote /\ c <> "\"%char /\ c <> e | Coded _ _ _ => True end.
Definition backslash : ascii := "\"%char.

(** * Reading *)
Lemma no_hex_char e up d : escape_ok e -> d < 16 -> hex_digit up d <> e.
Proof.
  intros [_ H] L E. apply (H up). rewrite <- E. unfold hex_digit. apply nth_In. destruct up; exact L.
Qed.
Lemma ascii_small c : nat_of_ascii c < 256.
Proof. apply nat_ascii_bounded. Qed.
Lemma hex_read c u v s : hexes 4 0 (hex_of c u v ++ s) = Some (N_of_ascii c, s).
Proof. destruct c as [[] [] [] [] [] [] [] []], u, v; reflexivity. Qed.
Lemma char_of_code c : char_of (N_of_ascii c) = Ok c.
Proof. destruct c as [[] [] [] [] [] [] [] []]; reflexivity. Qed.
Lemma hex_spread e c u v : escape_ok e -> spread e (hex_of c u v) = hex_of c u v.
Proof.
  intro E. pose proof (ascii_small c) as B. unfold hex_of.
  pose proof (no_hex_char e u (nat_of_ascii c / 16) E ltac:(apply Nat.div_lt_upper_bound; lia)) as N1.
  pose proof (no_hex_char e v (nat_of_ascii c mod 16) E ltac:(apply Nat.mod_upper_bound; lia)) as N2.
  pose proof (no_hex_char e true 0 E ltac:(lia)) as N0. change (hex_digit true 0) with "0"%char in N0.
  cbn [append spread]. destruct (Ascii.eqb_spec e "0"); [congruence|].
  destruct (Ascii.eqb_spec e (hex_digit u (nat_of_ascii c / 16))); [congruence|].
  destruct (Ascii.eqb_spec e (hex_digit v (nat_of_ascii c mod 16))); [congruence|]. reflexivity.
Qed.
Lemma spelt_decode e x n s : escape_ok e -> letter_ok e x ->
  decode_fuel (S n) (spread e (spelt e x) ++ s) = let* t := decode_fuel n s in Ok (String (letter_of x) t).
Proof.
  intros E L. destruct x as [c|c u v]; cbn [spelt letter_of].
  - destruct L as (_ & B & N). cbn [spread]. destruct (Ascii.eqb_spec e c); [congruence|]. cbn [append].
    now apply decode_plain.
  - cbn [spread]. rewrite Ascii.eqb_refl, hex_spread by exact E. rewrite sapp_assoc.
    rewrite decode_code, hex_read, char_of_code. reflexivity.
Qed.
Lemma spell_decode e l : escape_ok e -> Forall (letter_ok e) l -> forall n s,
  decode_fuel (length l + n) (spread e (spell e l) ++ s)
  = let* t := decode_fuel n s in Ok (spoken l ++ t)%string.
Proof.
  intros E F. induction F as [|x l L F IH]; intros n s.
  - cbn [length spell spread append Nat.add]. destruct (decode_fuel n s); reflexivity.
  - cbn [length spell Nat.add]. rewrite spread_app, sapp_assoc, spelt_decode by assumption. rewrite IH.
    destruct (decode_fuel n s); reflexivity.
Qed.
Lemma spell_length e l : length l <= String.length (spread e (spell e l)).
Proof.
  induction l as [|x l IH]; [reflexivity|]. cbn [spell length]. rewrite spread_app.
  rewrite slen_app. enough (0 < String.length (spread e (spelt e x))) by lia.
  destruct x as [c|c u v]; cbn [spelt spread]; destruct (Ascii.eqb e _); cbn; lia.
Qed.
Lemma hex_no_quote up d : d < 16 -> Ascii.eqb squote (hex_digit up d) = false.
Proof. intro L. do 16 (destruct d as [|d]; [destruct up; reflexivity|]). lia. Qed.
Lemma spell_no_quote e l : escape_ok e -> Forall (letter_ok e) l -> has_char squote (spell e l) = false.
Proof.
  unfold has_char. intros E F. induction F as [|x l L F IH]; [reflexivity|]. cbn [spell].
  assert (A : forall a b, str_exists (Ascii.eqb squote) (a ++ b)%string
              = (str_exists (Ascii.eqb squote) a || str_exists (Ascii.eqb squote) b)%bool).
  { intros a b. induction a as [|c a IHa]; [reflexivity|]. cbn [append str_exists]. now rewrite IHa, orb_assoc. }
  rewrite A, IH, orb_false_r. destruct x as [c|c u v]; cbn [spelt str_exists].
  - destruct L as (N & _). destruct (Ascii.eqb_spec squote c); [congruence|reflexivity].
  - destruct E as [E _]. destruct (Ascii.eqb_spec squote e); [congruence|]. pose proof (ascii_small c) as B.
    unfold hex_of. cbn [append str_exists]. rewrite !hex_no_quote; [reflexivity| |].
    + apply Nat.mod_upper_bound. lia.
    + apply Nat.div_lt_upper_bound; lia.
Qed.
Lemma unicode_value e l : escape_ok e -> Forall (letter_ok e) l ->
  v_unicode (String e "") ("U&'" ++ spell e l ++ "'") = Ok (spoken l).
Proof.
  intros E F. unfold v_unicode. rewrite uni_body by now apply spell_no_quote. rewrite replace_spread.
  unfold decode. pose proof (spell_length e l) as L.
  replace (String.length (spread e (spell e l))) with (length l + (String.length (spread e (spell e l)) - length l)) by lia.
  pose proof (spell_decode e l E F (String.length (spread e (spell e l)) - length l) "") as H.
  rewrite sapp_nil_r in H. rewrite H. destruct (_ - _); cbn [decode_fuel bind]; now rewrite sapp_nil_r.
Qed.
Lemma backslash_ok : escape_ok backslash.
Proof. split; [discriminate|]. intros [] H; cbn in H; repeat (destruct H as [H|H]; [discriminate|]); destruct H. Qed.

(** The tokens of a unicode string are read as the literal of its value. *)
Lemma uni_tokens en u :
  expression_of_tokens en [TUniString u] = let* s := v_unicode "\" u in Ok (text_literal s).
Proof.
  change (expression_of_tokens en [TUniString u]) with (let* s := v_unicode "\" u in mk (text_literal s)).
  destruct (v_unicode "\" u); reflexivity.
Qed.
Lemma uni_escape_tokens en u x t :
  expression_of_tokens en [TUniString u; TKw "UESCAPE" x; TString t]
  = let* s := v_unicode (strip squote t) u in Ok (text_literal s).
Proof.
  change (expression_of_tokens en [TUniString u; TKw "UESCAPE" x; TString t])
    with (let* s := v_unicode (strip squote t) u in mk (text_literal s)).
  destruct (v_unicode (strip squote t) u); reflexivity.
Qed.
Lemma lex_uescape e : e <> squote -> lex (" UESCAPE '" ++ String e "'") = [TKw "UESCAPE" "UESCAPE"; TString (String squote (String e "'"))].
Proof. intro E. destruct e as [[] [] [] [] [] [] [] []]; try reflexivity. now contradiction E. Qed.
Lemma strip_escape e : e <> squote -> strip squote (String squote (String e "'")) = String e "".
Proof. intro E. destruct e as [[] [] [] [] [] [] [] []]; try reflexivity. now contradiction E. Qed.
Lemma default_text en w : has_char squote w = false ->
  expression_from_sql en ("U&'" ++ w ++ "'")
  = let* s := v_unicode "\" ("U&'" ++ w ++ "'") in Ok (text_literal s).
Proof.
  intro W. unfold expression_from_sql. change (lex ("U&'" ++ w ++ "'")) with (lex ("U&'" ++ w ++ String squote "")).
  rewrite (lex_uni w "") by (reflexivity || now apply has_char_paired).
  change (lex "") with (@nil token). apply uni_tokens.
Qed.
Lemma uescape_text en w e : has_char squote w = false -> e <> squote ->
  expression_from_sql en ("U&'" ++ w ++ "' UESCAPE '" ++ String e "'")
  = let* s := v_unicode (String e "") ("U&'" ++ w ++ "'") in Ok (text_literal s).
Proof.
  intros W E. unfold expression_from_sql. change ("' UESCAPE '" ++ String e "'")%string with (String squote (" UESCAPE '" ++ String e "'")).
  rewrite (lex_uni w (" UESCAPE '" ++ String e "'")) by (reflexivity || now apply has_char_paired).
  rewrite lex_uescape by exact E. rewrite uni_escape_tokens. now rewrite strip_escape.
Qed.

(** * Values *)

(** The value of a unicode string: codes of four digits, with a backslash or with the character
    that UESCAPE names. *)
Theorem C64_default : forall en l, Forall (letter_ok backslash) l ->
  expression_from_sql en ("U&'" ++ spell backslash l ++ "'") = Ok (text_literal (spoken l)).
Proof.
  intros en l F. rewrite default_text by (apply spell_no_quote; [apply backslash_ok|exact F]).
  change "\" with (String backslash ""). rewrite unicode_value by (exact F || apply backslash_ok). reflexivity.
Qed.
Print Assumptions C64_default.
Theorem C64_uescape : forall en e l, escape_ok e -> Forall (letter_ok e) l ->
  expression_from_sql en ("U&'" ++ spell e l ++ "' UESCAPE '" ++ String e "'") = Ok (text_literal (spoken l)).
Proof.
  intros en e l E F. rewrite uescape_text by (apply E || now apply spell_no_quote).
  rewrite unicode_value by assumption. reflexivity.
Qed.
Print Assumptions C64_uescape.
(** So every text, with any quotes, is the value of some literal: plain strings cannot give them
    all (C58_string_quotes). *)
Theorem C64_all_texts : forall en s, exists t, expression_from_sql en t = Ok (text_literal s).
Proof.
  intros en s. eexists. rewrite (C64_default en (map (fun c => Coded c true true) (list_ascii_of_string s))).
  - unfold spoken. rewrite map_map. cbn [letter_of]. rewrite map_id, string_of_list_ascii_of_string. reflexivity.
  - apply Forall_forall. intros x I. apply in_map_iff in I as (c & <- & _). exact Logic.I.
Qed.
Print Assumptions C64_all_texts.

(** * What raises *)

Definition not_hex (d : ascii) : Prop := forall up, ~ In d (hex_digits up).
Lemma hex_val_none d : not_hex d -> hex_val d = None.
Proof.
  intro N. destruct (hex_val d) eqn:H; [|reflexivity]. exfalso. revert N H.
  destruct d as [[] [] [] [] [] [] [] []]; intros N H; try discriminate H;
    first [apply (N true); cbn; tauto | apply (N false); cbn; tauto].
Qed.
Lemma bad_no_quote e l d s : escape_ok e -> Forall (letter_ok e) l -> d <> squote -> has_char squote s = false ->
  has_char squote (spell e l ++ String e (String d s)) = false.
Proof.
  intros [E E'] F D S. pose proof (spell_no_quote e l (conj E E') F) as H. unfold has_char in *. revert H. generalize (spell e l). intros w H.
  induction w as [|c w IH]; cbn [append str_exists] in *.
  - destruct (Ascii.eqb_spec squote e); [congruence|]. destruct (Ascii.eqb_spec squote d); [congruence|]. exact S.
  - apply orb_false_iff in H as [-> H]. now apply IH.
Qed.
Lemma unicode_bad e l d s : escape_ok e -> Forall (letter_ok e) l -> not_hex d -> d <> squote -> has_char squote s = false ->
  v_unicode (String e "") ("U&'" ++ (spell e l ++ String e (String d s)) ++ "'") = Err UnicodeDecodeError.
Proof.
  intros E F D Q N. unfold v_unicode. rewrite uni_body by now apply bad_no_quote.
  rewrite replace_spread, spread_app. unfold decode. rewrite slen_app.
  pose proof (spell_length e l) as L. set (w := spread e (String e (String d s))).
  assert (W : exists d' r, w = ("\u" ++ String d' r)%string /\ hex_val d' = None).
  { unfold w. cbn [spread]. rewrite Ascii.eqb_refl. destruct (Ascii.eqb_spec e d) as [->|_].
    - exists "\"%char. eexists. split; [reflexivity|reflexivity].
    - exists d. eexists. split; [reflexivity|now apply hex_val_none]. }
  destruct W as (d' & r & -> & H).
  replace (String.length (spread e (spell e l)) + String.length ("\u" ++ String d' r))
    with (length l + S (String.length (spread e (spell e l)) - length l + S (S (String.length r)))) by (rewrite slen_app; cbn; lia).
  rewrite spell_decode by assumption. rewrite decode_code. cbn [hexes]. rewrite H. reflexivity.
Qed.
(** An escape character before anything but a hexadecimal digit raises, whatever follows: the
    codes of six digits [\+hhhhhh] and the doubled escape character of SQL among them. *)
Theorem C64_not_a_code : forall en l d s,
  Forall (letter_ok backslash) l -> not_hex d -> d <> squote -> has_char squote s = false ->
  expression_from_sql en ("U&'" ++ (spell backslash l ++ String backslash (String d s)) ++ "'") = Err UnicodeDecodeError.
Proof.
  intros en l d s F D Q S. rewrite default_text by (apply bad_no_quote; auto using backslash_ok).
  change "\" with (String backslash ""). rewrite unicode_bad by auto using backslash_ok. reflexivity.
Qed.
Print Assumptions C64_not_a_code.
Theorem C64_uescape_not_a_code : forall en e l d s,
  escape_ok e -> Forall (letter_ok e) l -> not_hex d -> d <> squote -> has_char squote s = false ->
  expression_from_sql en ("U&'" ++ (spell e l ++ String e (String d s)) ++ "' UESCAPE '" ++ String e "'")
  = Err UnicodeDecodeError.
Proof.
  intros en e l d s E F D Q S. rewrite uescape_text by (apply E || now apply bad_no_quote).
  rewrite unicode_bad by assumption. reflexivity.
Qed.
Print Assumptions C64_uescape_not_a_code.

(** * What a reader may expect and does not get *)

(** With another escape character a backslash is still an escape, of Python's. *)
Theorem C64_backslash_refuted : exists s,
  expression_from_sql bare_env "U&'C:\new' UESCAPE '!'" = Ok (text_literal s) /\ s <> "C:\new" /\ s = ("C:" ++ String nl "ew")%string.
Proof. exists ("C:" ++ String nl "ew")%string. split; [vm_compute; reflexivity|]. split; [discriminate|reflexivity]. Qed.
Print Assumptions C64_backslash_refuted.
(** Two quotes stay two quotes. *)
Theorem C64_quotes_refuted : expression_from_sql bare_env "U&'it''s'" = Ok (text_literal "it''s").
Proof. vm_compute. reflexivity. Qed.
Print Assumptions C64_quotes_refuted.
(** An escape of no characters, as in UESCAPE '', is put between all the characters. *)
Theorem C64_empty_escape_refuted : expression_from_sql bare_env "U&'a' UESCAPE ''" = Err UnicodeDecodeError.
Proof. vm_compute. reflexivity. Qed.
Print Assumptions C64_empty_escape_refuted.
(** What is read is not always written so that it can be read again. *)
Theorem C64_print_refuted : exists e,
  expression_from_sql bare_env "U&'\0027'" = Ok e /\ expression_from_sql bare_env (sql e default_opts) = Err SyntaxErr.
Proof. exists (text_literal "'"). split; vm_compute; reflexivity. Qed.
Print Assumptions C64_print_refuted.

(** * Cases *)
Definition case_letters : list letter := [Plain "U"%char; Coded backslash false true; Coded squote true false; Plain "&"%char; Coded "233"%char false true; Coded "000"%char true true].
Example C64_case : Forall (letter_ok backslash) case_letters /\ spell backslash case_letters = "U\005C\0027&\00e9\0000".
Proof. split; [repeat constructor; discriminate|reflexivity]. Qed.
Example C64_case_escape : escape_ok "!" /\ Forall (letter_ok "!") case_letters /\ spell "!" case_letters = "U!005C!0027&!00e9!0000".
Proof.
  repeat apply conj; [discriminate| |repeat constructor; discriminate|reflexivity].
  intros [] H; cbn in H; repeat (destruct H as [H|H]; [discriminate|]); destruct H.
Qed.
Example C64_case_not_hex : not_hex "+" /\ not_hex backslash.
Proof. split; intros [] H; cbn in H; repeat (destruct H as [H|H]; [discriminate|]); destruct H. Qed.
