(** A text written as described in Spelling.v has the tokens it was written from
    (for C55). *)
From Coq Require Import String Ascii List Bool Arith NArith Lia.
From Verif Require Import PyStr StrFacts Lexer LexFacts ReadsFacts Tokens Spelling.
Import ListNotations.
Open Scope nat_scope.
Open Scope string_scope.

(** Decide the tests of [next_token] on a known first character. *)
Ltac known :=
  repeat match goal with
         | |- context [if ?b then _ else _] =>
             let v := eval vm_compute in b in
             match v with
             | true => change b with true; cbn iota
             | false => change b with false; cbn iota
             end
         end.

(** The character classes of the grammar are the lexer's. *)
Lemma all_chars (f g : ascii -> bool) :
  forallb (fun n => Bool.eqb (f (ascii_of_nat n)) (g (ascii_of_nat n))) (seq 0 256) = true ->
  forall c, f c = g c.
Proof.
  intros H c. rewrite <- (ascii_nat_embedding c).
  rewrite forallb_forall in H. apply Bool.eqb_prop. apply H.
  apply in_seq. pose proof (nat_ascii_bounded c). lia.
Qed.
Lemma blank_ws c : blank c = is_ws c.
Proof. revert c. apply all_chars. vm_compute. reflexivity. Qed.
Lemma digit_is c : digit c = is_digit c.
Proof. revert c. apply all_chars. vm_compute. reflexivity. Qed.
Lemma letter_is c : letter c = is_letter c.
Proof. revert c. apply all_chars. vm_compute. reflexivity. Qed.
Lemma word_char_is c : word_char c = is_word c.
Proof. revert c. apply all_chars. vm_compute. reflexivity. Qed.
Lemma str_forall_ext f g s : (forall c, f c = g c) -> str_forall f s = str_forall g s.
Proof. intros E. induction s as [|c s IH]; [reflexivity|]. cbn [str_forall]. now rewrite E, IH. Qed.
Lemma not_next_ext f g k : (forall c, f c = g c) -> not_next f k = not_next g k.
Proof. intros E. destruct k; cbn [not_next]; [reflexivity|]. now rewrite E. Qed.
Lemma word_wordy w : word w = wordy w.
Proof.
  destruct w as [|c w]; [reflexivity|]. cbn [word wordy str_forall].
  rewrite letter_is, (str_forall_ext _ _ w word_char_is). unfold is_word at 2.
  destruct (is_letter c); [reflexivity|]. destruct (Ascii.eqb c "_"); [|reflexivity].
  now destruct (is_digit c).
Qed.

Lemma lex_skip_line b e k : str_exists eol b = false -> line_end e ->
  lex (skip_line (b ++ e ++ k)) = lex k.
Proof.
  induction b as [|c b IH]; intros Hb He.
  - cbn [append]. destruct He as [ -> | [ -> | -> ] ]; cbn [append].
    + reflexivity.
    + cbn [skip_line]. change (N.eqb (code carriage_return) 10) with false.
      change (N.eqb (code carriage_return) 13) with true. cbn iota.
      destruct k as [|d k]; [reflexivity|]. destruct (N.eqb (code d) 10) eqn:E; [|reflexivity].
      rewrite (lex_cons d k). unfold next_token.
      assert (W : is_ws d = true) by (unfold is_ws; rewrite E, orb_true_r; reflexivity).
      now rewrite W.
    + reflexivity.
  - cbn [str_exists append] in *. apply orb_false_iff in Hb as [Hc Hb]. cbn [skip_line].
    unfold eol in Hc. apply orb_false_iff in Hc as [-> ->]. now apply IH.
Qed.
Lemma skip_line_end b : str_exists eol b = false -> skip_line b = "".
Proof.
  induction b as [|c b IH]; [reflexivity|].
  cbn [str_exists append]. intros [Hc Hb]%orb_false_iff. cbn [skip_line].
  unfold eol in Hc. apply orb_false_iff in Hc as [-> ->]. now apply IH.
Qed.
Lemma skip_comment_spec b k : closes b = false -> skip_comment (b ++ "*/" ++ k) = Some k.
Proof.
  induction b as [|c b IH]; [reflexivity|].
  cbn [closes]. intros [Hc Hb]%orb_false_iff. specialize (IH Hb).
  destruct b as [|d b].
  - cbn [append] in *. cbn [skip_comment] in *. rewrite andb_false_r. exact IH.
  - cbn [append] in *. cbn [skip_comment]. rewrite Hc. exact IH.
Qed.
Lemma lex_minus s : lex (String "-" (String "-" s)) = lex (skip_line s).
Proof. rewrite lex_cons. unfold next_token. known. reflexivity. Qed.
Lemma lex_block s k : skip_comment s = Some k -> lex (String "/" (String "*" s)) = lex k.
Proof. intros H. rewrite lex_cons. unfold next_token. known. now rewrite H. Qed.

Lemma lex_gap g : gap g -> forall k, lex (g ++ k) = lex k.
Proof.
  induction 1 as [|c g Hc Hg IH|b e g Hb He Hg IH|b g Hb Hg IH]; intros k.
  - reflexivity.
  - cbn [append]. rewrite lex_cons. unfold next_token. rewrite blank_ws in Hc. rewrite Hc. apply IH.
  - cbn [append]. rewrite lex_minus. rewrite !sapp_assoc.
    rewrite (lex_skip_line b e (g ++ k) Hb He). apply IH.
  - cbn [append]. rewrite sapp_assoc. cbn [append].
    rewrite (lex_block _ (g ++ k)); [apply IH|]. now apply (skip_comment_spec b (g ++ k)).
Qed.

Lemma not_next_spec f k : not_next f k = true ->
  match k with "" => True | String c _ => f c = false end.
Proof. destruct k; cbn [not_next]; [easy|]. now intros ->%negb_true_iff. Qed.

Lemma lex_word w k : wordy w = true -> not_next is_word k = true -> prefix_word w k = false ->
  lex (w ++ k) = word_token w :: lex k.
Proof.
  intros H Hk Hp. destruct w as [|c n]; [discriminate|]. cbn [wordy] in H.
  apply andb_true_iff in H; destruct H as [Hc Hw].
  cbn [append]. rewrite lex_cons. unfold next_token.
  destruct (letter_facts c Hc) as (E1 & E2 & E3 & E4 & E5). rewrite E1, E2, E3, E4, E5, Hc.
  assert (Es : span is_word (String c (n ++ k)) = (String c n, k)).
  { apply (span_spec is_word (String c n) k Hw). now apply not_next_spec. }
  rewrite Es; clear Es.
  set (w := String c n) in *. cbn iota. unfold prefix_word in Hp.
  destruct (String.eqb w "U") eqn:U.
  - destruct k as [|a k]; [reflexivity|].
    apply String.eqb_eq in U. rewrite U in Hp. cbn [String.eqb Ascii.eqb Bool.eqb andb orb] in Hp.
    destruct k as [|b k]; [reflexivity|].
    cbn [not_next] in Hp. rewrite negb_involutive in Hp.
    rewrite (Ascii.eqb_sym squote b) in Hp. rewrite Hp. reflexivity.
  - destruct (String.eqb w "X"); [|reflexivity].
    destruct k as [|a k]; [reflexivity|]. cbn [andb] in Hp.
    apply orb_false_iff in Hp as [-> _]. reflexivity.
Qed.

Lemma lex_int ds k : str_forall is_digit ds = true -> ds <> "" ->
  not_next (fun c => is_word c || Ascii.eqb c ".")%bool k = true ->
  lex (ds ++ k) = TInt ds :: lex k.
Proof.
  intros Hd Hne Hk. destruct ds as [|c ds]; [congruence|].
  assert (Hc : is_digit c = true) by (cbn in Hd; now apply andb_true_iff in Hd).
  destruct (digit_facts c Hc) as (E1 & E2 & E3 & E4).
  cbn [append]; rewrite lex_cons; unfold next_token.
  rewrite E1, E2, E3, E4, Hc.
  assert (Hkw : match k with "" => True | String c _ => is_word c = false end).
  { destruct k; [exact Logic.I|]. cbn [not_next] in Hk. apply negb_true_iff, orb_false_iff in Hk. tauto. }
  assert (Hk' : match k with "" => True | String c _ => is_digit c = false end).
  { destruct k as [|d k]; [exact Logic.I|]. destruct (is_digit d) eqn:D; [|reflexivity].
    apply digit_word in D. congruence. }
  unfold number_token.
  change (String c (ds ++ k)) with (String c ds ++ k).
  rewrite (span_spec is_digit _ k Hd Hk').
  rewrite (span_spec is_word _ k (str_forall_impl _ _ _ digit_is_word Hd) Hkw).
  destruct k as [|d k].
  - rewrite Nat.ltb_irrefl; reflexivity.
  - cbn [not_next] in Hk. apply negb_true_iff, orb_false_iff in Hk as [_ ->].
    unfold scan_exponent. destruct (Ascii.eqb_spec d "E") as [->|_]; [discriminate|].
    rewrite Nat.ltb_irrefl; reflexivity.
Qed.
Lemma lex_dec a b k : str_forall is_digit a = true -> a <> "" -> str_forall is_digit b = true ->
  not_next is_word k = true -> lex ((a ++ "." ++ b) ++ k) = TDec (a ++ "." ++ b) :: lex k.
Proof.
  intros Ha Na Hb Hk. apply not_next_spec in Hk.
  rewrite sapp_assoc. cbn [append]. destruct a as [|c a]; [congruence|]. cbn [append].
  assert (Hc : is_digit c = true) by (cbn in Ha; now apply andb_true_iff in Ha).
  destruct (digit_facts c Hc) as (E1 & E2 & E3 & E4).
  rewrite lex_cons. unfold next_token. rewrite E1, E2, E3, E4, Hc.
  set (s := String c (a ++ String "." (b ++ k))).
  assert (S1 : span is_digit s = (String c a, String "." (b ++ k))).
  { apply (span_spec is_digit (String c a) (String "." (b ++ k)) Ha). reflexivity. }
  assert (S2 : span is_word s = (String c a, String "." (b ++ k))).
  { apply (span_spec is_word (String c a) (String "." (b ++ k))); [|reflexivity].
    revert Ha; apply str_forall_imp, digit_word. }
  assert (S3 : span is_digit (b ++ k) = (b, k)).
  { apply span_spec; [exact Hb|]. destruct k as [|d k]; [exact Logic.I|].
    destruct (is_digit d) eqn:D; [|reflexivity]. apply digit_word in D. congruence. }
  assert (S4 : scan_exponent k = None).
  { destruct k as [|d k]; [reflexivity|]. unfold scan_exponent.
    destruct (Ascii.eqb_spec d "E") as [->|_]; [discriminate | reflexivity]. }
  unfold number_token. rewrite S1, S2.
  change (Ascii.eqb "." ".") with true. cbn iota. rewrite S3, S4.
  assert (L : Nat.ltb (String.length (String "." (b ++ k))) (String.length k) = false).
  { apply Nat.ltb_ge. cbn. rewrite slen_app. lia. }
  rewrite L. reflexivity.
Qed.

Lemma lex_sym s k : sym_ok s k = true -> lex (s ++ k) = TSym s :: lex k.
Proof.
  unfold sym_ok. rewrite (not_next_ext _ _ k digit_is). destruct (mem s _) eqn:M.
  { intros _. unfold mem in M. cbn [existsb] in M.
    repeat (apply orb_prop in M; destruct M as [M|M];
            [apply String.eqb_eq in M; subst s; cbn [append]; rewrite lex_cons;
             unfold next_token; known; reflexivity|]).
    discriminate. }
  clear M.
  repeat match goal with
         | |- (if String.eqb s ?x then _ else _) = true -> _ =>
             destruct (String.eqb_spec s x) as [->|_];
             [intros H; cbn [append]; rewrite lex_cons; unfold next_token; known;
              destruct k as [|d k]; [reflexivity|]; cbn [not_next] in H;
              unfold one_of in H; cbn [existsb] in H;
              rewrite ?orb_false_r, ?negb_orb, ?andb_true_iff, ?negb_true_iff in H;
              repeat match goal with H : _ /\ _ |- _ => destruct H end;
              repeat match goal with H : _ = false |- _ => rewrite H end; reflexivity|]
         end.
  discriminate.
Qed.

Lemma lexeme_lex t s k : lexeme t s k -> lex (s ++ k) = t :: lex k.
Proof.
  destruct 1 as [w k A B C|?|?|ds k A B C|ds fs k A B C D|s k A].
  - rewrite word_wordy in A. rewrite (not_next_ext _ _ k word_char_is) in B. now apply lex_word.
  - now apply lex_quoted_ident.
  - now apply lex_quoted_literal.
  - rewrite (str_forall_ext _ _ ds digit_is) in A. apply lex_int; [exact A | exact B |].
    etransitivity; [apply not_next_ext; intros c; rewrite <- word_char_is; reflexivity | exact C].
  - rewrite (str_forall_ext _ _ ds digit_is) in A. rewrite (str_forall_ext _ _ fs digit_is) in C.
    rewrite (not_next_ext _ _ k word_char_is) in D. now apply lex_dec.
  - now apply lex_sym.
Qed.
Lemma written_lex ts s : written ts s -> lex s = ts.
Proof.
  induction 1 as [g Hg|g b Hg Hb|g t s k ts Hg Hl Hw IH].
  - rewrite <- (sapp_nil_r g). rewrite lex_gap by exact Hg. apply lex_nil.
  - rewrite lex_gap by exact Hg. cbn [append]. rewrite lex_minus, skip_line_end by exact Hb.
    apply lex_nil.
  - rewrite lex_gap by exact Hg. rewrite (lexeme_lex _ _ _ Hl). now rewrite IH.
Qed.
