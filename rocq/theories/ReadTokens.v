(** What the tokens of any text look like (for C58). *)
From Coq Require Import String Ascii List Bool Arith NArith ZArith Lia.
From Verif Require Import PyStr StrFacts Types Lexer LexFacts TypeParser Tokens TextFacts.
Import ListNotations.
Open Scope nat_scope.
Open Scope string_scope.

(** * Names and texts after the quotes are taken away *)

(** A name of SqlBase.g4 814-820 as it is kept: no quote at either end, and
    quotes inside in pairs. *)
Definition name_text (n : string) : Prop := no_edge dquote n /\ doubled dquote n.
(** Likewise the text of a string literal. *)
Definition string_text (s : string) : Prop := no_edge squote s /\ doubled squote s.

Lemma lstrip_head q s t : lstrip q s <> String q t.
Proof.
  induction s as [|c s IH]; cbn [lstrip]; [discriminate|].
  destruct (Ascii.eqb_spec q c) as [->|N]; [exact IH|]. intro H. injection H as H _. congruence.
Qed.
Lemma rstrip_tail q s t : rstrip q s <> t ++ String q "".
Proof.
  revert t. induction s as [|c s IH]; intro t; cbn [rstrip].
  - destruct t; discriminate.
  - destruct (rstrip q s) as [|d r] eqn:E.
    + destruct (Ascii.eqb_spec q c) as [->|N]; [destruct t; discriminate|].
      destruct t as [|x t]; intro H.
      * cbn [append] in H. injection H as H. congruence.
      * cbn [append] in H. injection H as _ H. destruct t; discriminate.
    + destruct t as [|x t]; intro H; cbn [append] in H.
      * injection H as _ H. discriminate.
      * injection H as _ H. now apply (IH t).
Qed.
Lemma rstrip_head q s t : (forall u, s <> String q u) -> rstrip q s <> String q t.
Proof.
  destruct s as [|c s]; intros H; cbn [rstrip]; [discriminate|].
  assert (N : c <> q) by (intros ->; now apply (H s)).
  destruct (rstrip q s).
  - destruct (Ascii.eqb q c); [discriminate|]. intro X. injection X as X _. congruence.
  - intro X. injection X as X _. congruence.
Qed.
Lemma strip_no_edge q s : no_edge q (strip q s).
Proof.
  unfold strip. split.
  - intro t. apply rstrip_head. intro u. apply lstrip_head.
  - intro t. apply rstrip_tail.
Qed.
Lemma lstrip_paired q n : forall s, String.length s <= n -> paired q s = true -> paired q (lstrip q s) = true.
Proof.
  induction n as [|n IH]; intros s L P; destruct s as [|c s]; try reflexivity; [cbn in L; lia|].
  cbn [lstrip]. destruct (Ascii.eqb_spec q c) as [->|N]; [|exact P].
  cbn [paired] in P. rewrite Ascii.eqb_refl in P. destruct s as [|d s]; [discriminate|].
  apply andb_true_iff in P as [P1 P2]. apply Ascii.eqb_eq in P1. subst d.
  cbn [lstrip]. rewrite Ascii.eqb_refl. apply IH; [cbn in L; lia|exact P2].
Qed.
Lemma rstrip_paired q n : forall s, String.length s <= n -> paired q s = true -> paired q (rstrip q s) = true.
Proof.
  induction n as [|n IH]; intros s L P; destruct s as [|c s]; try reflexivity; [cbn in L; lia|].
  cbn [paired] in P. destruct (Ascii.eqb c q) eqn:E.
  - apply Ascii.eqb_eq in E. subst c. destruct s as [|d s]; [discriminate|].
    apply andb_true_iff in P as [P1 P2]. apply Ascii.eqb_eq in P1. subst d.
    cbn in L. specialize (IH s ltac:(lia) P2). cbn [rstrip].
    destruct (rstrip q s) as [|x r] eqn:R.
    + now rewrite Ascii.eqb_refl.
    + change (paired q (String q (String q (String x r))) = true).
      cbn [paired] in *. rewrite Ascii.eqb_refl. cbn [andb]. exact IH.
  - cbn in L. specialize (IH s ltac:(lia) P). cbn [rstrip]. rewrite Ascii.eqb_sym in E.
    destruct (rstrip q s) as [|x r] eqn:R.
    + rewrite E. cbn [paired]. rewrite Ascii.eqb_sym, E. reflexivity.
    + change (paired q (String c (String x r)) = true).
      cbn [paired] in *. rewrite Ascii.eqb_sym, E. exact IH.
Qed.
Lemma lstrip_quoted q b :
  lstrip q (b ++ String q "") = lstrip q b ++ String q "" \/ (lstrip q (b ++ String q "") = "" /\ lstrip q b = "").
Proof.
  induction b as [|c b IH]; cbn [append lstrip]; [rewrite Ascii.eqb_refl; now right|].
  destruct (Ascii.eqb q c); [exact IH|]. now left.
Qed.
Lemma strip_quoted q b : strip q (String q (b ++ String q "")) = strip q b.
Proof.
  unfold strip. cbn [lstrip]. rewrite Ascii.eqb_refl.
  destruct (lstrip_quoted q b) as [ -> | [ -> -> ] ]; [apply rstrip_last | reflexivity].
Qed.
Lemma strip_doubled q b : doubled q b -> doubled q (strip q (String q (b ++ String q ""))).
Proof.
  rewrite <- !paired_doubled, strip_quoted. intro P. unfold strip.
  eapply rstrip_paired; [apply le_n|]. eapply lstrip_paired; [apply le_n|exact P].
Qed.

(** The scanner of quoted texts reads a text with doubled quotes and the closing quote. *)
Lemma scan_quoted_body q n : forall s t r, String.length s <= n ->
  scan_quoted q s = Some (t, r) -> exists b, paired q b = true /\ t = b ++ String q "".
Proof.
  induction n as [|n IH]; intros s t r L H; destruct s as [|c s]; try discriminate; [cbn in L; lia|].
  cbn in L. cbn [scan_quoted] in H. destruct (Ascii.eqb c q) eqn:E.
  - apply Ascii.eqb_eq in E. subst c.
    destruct s as [|d s]; [injection H as <- <-; now exists ""|].
    destruct (Ascii.eqb d q) eqn:Ed; [|injection H as <- <-; now exists ""].
    apply Ascii.eqb_eq in Ed. subst d. cbn in L.
    destruct (scan_quoted q s) as [[u v]|] eqn:S; [|injection H as <- <-; now exists ""].
    destruct (IH s u v ltac:(lia) S) as (b & P & ->). injection H as <- <-.
    exists (String q (String q b)). split; [|reflexivity].
    cbn [paired]. now rewrite Ascii.eqb_refl.
  - destruct (scan_quoted q s) as [[u v]|] eqn:S; [|discriminate].
    destruct (IH s u v ltac:(lia) S) as (b & P & ->). injection H as <- <-.
    exists (String c b). split; [|reflexivity]. cbn [paired]. now rewrite E.
Qed.

(** * Tokens *)
Definition digits_only (s : string) : Prop := str_forall is_digit s = true.
(** Which of the tokens that are converted (unicode strings, doubles) may occur. *)
Class lexis := { uni : bool; dbl : bool }.
Definition any : lexis := {| uni := true; dbl := true |}.
Definition tok_ok {Lx : lexis} (t : token) : Prop :=
  match t with
  | TId w => wordy w = true
  | TKw k w => wordy w = true /\ upper w = k
  | TQuoted q => exists b, doubled dquote b /\ q = quote_identifier b
  | TString q => exists b, doubled squote b /\ q = quote_literal b
  | TDec s => exists i f, s = i ++ "." ++ f /\ digits_only i /\ digits_only f
  | TUniString _ => uni = true
  | TDbl _ => dbl = true
  | _ => True
  end.
Lemma mem_in x l : mem x l = true -> In x l.
Proof. unfold mem. intro H. apply existsb_exists in H as (y & Hy & E). apply String.eqb_eq in E. now subst. Qed.
Lemma keywords_upper w : mem w keywords = true \/ mem w upper_keywords = true -> upper w = w.
Proof.
  assert (F : forallb (fun k => String.eqb (upper k) k) (keywords ++ upper_keywords) = true)
    by (vm_compute; reflexivity).
  rewrite forallb_forall in F. intro H. apply String.eqb_eq, F, in_or_app.
  destruct H as [H|H]; apply mem_in in H; auto.
Qed.
Lemma word_token_ok w : wordy w = true -> @tok_ok any (word_token w).
Proof.
  intro W. unfold word_token.
  destruct (mem w keywords) eqn:E1; [split; [exact W|apply keywords_upper; auto]|].
  destruct (mem w upper_keywords) eqn:E2; [split; [exact W|apply keywords_upper; auto]|].
  destruct (mem (upper w) keywords && String.eqb w (lower w))%bool; [split; auto|exact W].
Qed.
Lemma number_token_ok s t r : number_token s = (t, r) -> @tok_ok any t.
Proof.
  unfold number_token. destruct (span is_digit s) as [ds r0] eqn:E.
  apply span_forall in E.
  set (p := match r0 with
            | String c r1 => _
            | "" => _
            end).
  assert (P : @tok_ok any (fst p)).
  { subst p. destruct r0 as [|c r1]; [(exact Logic.I || reflexivity)|].
    destruct (Ascii.eqb c ".").
    - destruct (span is_digit r1) as [fs r2] eqn:E2. apply span_forall in E2.
      destruct (scan_exponent r2) as [[e r3]|]; [(exact Logic.I || reflexivity)|].
      exists ds, fs. auto.
    - destruct (scan_exponent (String c r1)) as [[e r3]|]; (exact Logic.I || reflexivity). }
  destruct p as [num nr]. destruct (span is_word s) as [w wr].
  destruct (Nat.ltb (String.length wr) (String.length nr)); intro H; injection H as <- <-;
    [(exact Logic.I || reflexivity)|exact P].
Qed.
Lemma quoted_ok q s t r : scan_quoted q s = Some (t, r) ->
  exists b, doubled q b /\ String q t = String q (b ++ String q "").
Proof.
  intro H. destruct (scan_quoted_body q _ _ _ _ (le_n _) H) as (b & P & ->).
  exists b. split; [now apply paired_doubled|reflexivity].
Qed.
Lemma next_token_ok c s t r : next_token c s = (Some t, r) -> @tok_ok any t.
Proof.
  unfold next_token. intro H.
  destruct (is_ws c); [discriminate|].
  destruct (Ascii.eqb c squote) eqn:E1.
  { apply Ascii.eqb_eq in E1. subst c.
    destruct (scan_quoted squote s) as [[u v]|] eqn:S; injection H as <- <-; [|(exact Logic.I || reflexivity)].
    exact (quoted_ok _ _ _ _ S). }
  destruct (Ascii.eqb c dquote) eqn:E2.
  { apply Ascii.eqb_eq in E2. subst c.
    destruct (scan_quoted dquote s) as [[u v]|] eqn:S; injection H as <- <-; [|(exact Logic.I || reflexivity)].
    exact (quoted_ok _ _ _ _ S). }
  destruct (Ascii.eqb c "`").
  { destruct (scan_quoted "`" s) as [[u v]|]; injection H as <- <-; (exact Logic.I || reflexivity). }
  destruct (is_digit c) eqn:Ed.
  { destruct (number_token (String c s)) as [t' r'] eqn:N. injection H as <- <-.
    now apply number_token_ok in N. }
  destruct (is_letter c || Ascii.eqb c "_")%bool eqn:El.
  { destruct (span is_word (String c s)) as [w r'] eqn:Sp.
    assert (W : @tok_ok any (word_token w)).
    { apply word_token_ok. cbn [span] in Sp.
      assert (Wc : is_word c = true)
        by (unfold is_word; destruct (is_letter c); [reflexivity|]; cbn [orb] in *; rewrite El;
            now destruct (is_digit c)).
      rewrite Wc in Sp. destruct (span is_word s) as [a b] eqn:Sp'. injection Sp as <- <-.
      apply span_forall in Sp'. unfold wordy. cbn [str_forall]. rewrite El, Wc, Sp'. reflexivity. }
    destruct (String.eqb w "U").
    { destruct r' as [|a [|b r']]; try (injection H as <- <-; exact W).
      destruct (Ascii.eqb a "&" && Ascii.eqb b squote)%bool; [|injection H as <- <-; exact W].
      destruct (scan_quoted squote r') as [[u v]|]; injection H as <- <-; [(exact Logic.I || reflexivity)|exact W]. }
    destruct (String.eqb w "X"); [|injection H as <- <-; exact W].
    destruct r' as [|a r']; [injection H as <- <-; exact W|].
    destruct (Ascii.eqb a squote); [|injection H as <- <-; exact W].
    destruct (scan_binary r') as [[u v]|]; injection H as <- <-; [(exact Logic.I || reflexivity)|exact W]. }
  destruct (existsb (Ascii.eqb c) one_char_syms); [injection H as <- <-; (exact Logic.I || reflexivity)|].
  cbv zeta in H. destruct (Ascii.eqb c ".").
  { destruct s as [|d s]; [injection H as <- <-; (exact Logic.I || reflexivity)|].
    destruct (is_digit d) eqn:Ed'; [|injection H as <- <-; (exact Logic.I || reflexivity)].
    destruct (span is_digit (String d s)) as [fs r'] eqn:Sp. apply span_forall in Sp.
    destruct (scan_exponent r') as [[e r3]|]; injection H as <- <-; [(exact Logic.I || reflexivity)|].
    exists "", fs. split; [reflexivity|]. now split. }
  repeat match type of H with
         | (if ?b then _ else _) = _ => destruct b
         | match skip_comment ?x with _ => _ end = _ => destruct (skip_comment x)
         end;
    try discriminate H; injection H as <- <-; (exact Logic.I || reflexivity).
Qed.
Lemma lex_ok s : Forall (@tok_ok any) (lex s).
Proof.
  unfold lex. generalize (String.length s) as n. intro n. revert s.
  induction n as [|n IH]; intro s; cbn [lex_fuel]; [constructor|].
  destruct s as [|c s]; [constructor|].
  destruct (next_token c s) as [[t|] r] eqn:E; [|apply IH].
  constructor; [eapply next_token_ok; exact E|apply IH].
Qed.

(** With the tokens that occur. *)
Definition has_uni (ts : list token) : bool := existsb (fun t => match t with TUniString _ => true | _ => false end) ts.
Definition has_dbl (ts : list token) : bool := existsb (fun t => match t with TDbl _ => true | _ => false end) ts.
Definition lexis_of (ts : list token) : lexis := {| uni := has_uni ts; dbl := has_dbl ts |}.
Lemma lex_has s : Forall (@tok_ok (lexis_of (lex s))) (lex s).
Proof.
  generalize (lex_ok s). rewrite !Forall_forall. intros H t I. specialize (H t I).
  destruct t; try exact H; cbn; apply existsb_exists; eexists; (split; [exact I|reflexivity]).
Qed.

(** * Names *)
Lemma word_char_no q w : is_word q = false -> str_forall is_word w = true -> has_char q w = false.
Proof.
  intros Q. unfold has_char. induction w as [|c w IH]; [reflexivity|]. cbn [str_forall str_exists].
  intros [H1 H2]%andb_true_iff. rewrite IH by exact H2.
  destruct (Ascii.eqb_spec q c) as [->|]; [congruence|reflexivity].
Qed.
Lemma no_char_doubled q w : has_char q w = false -> doubled q w.
Proof. intro H. exists [w]. split; [repeat constructor; exact H|reflexivity]. Qed.
Lemma no_char_edge q w : has_char q w = false -> no_edge q w.
Proof.
  unfold has_char. intro H. split; intros t ->.
  - cbn [str_exists] in H. rewrite Ascii.eqb_refl in H. discriminate.
  - induction t as [|c t IH]; cbn [append str_exists] in H.
    + rewrite Ascii.eqb_refl in H. discriminate.
    + apply orb_false_iff in H as [_ H]. now apply IH.
Qed.
Lemma wordy_chars w : wordy w = true -> str_forall is_word w = true.
Proof. destruct w; [reflexivity|]. unfold wordy. intro H. now apply andb_true_iff in H. Qed.
Lemma wordy_name w : wordy w = true -> name_text w.
Proof.
  intro H. apply wordy_chars in H.
  assert (N : has_char dquote w = false) by (apply word_char_no; [reflexivity|exact H]).
  split; [now apply no_char_edge|now apply no_char_doubled].
Qed.
Lemma quoted_name b : doubled dquote b -> name_text (strip dquote (quote_identifier b)).
Proof. intro H. split; [apply strip_no_edge|now apply strip_doubled]. Qed.
Lemma quoted_text b : doubled squote b -> string_text (strip squote (quote_literal b)).
Proof. intro H. split; [apply strip_no_edge|now apply strip_doubled]. Qed.
(** Identifiers as read. *)
Definition id_ok (i : pident) : Prop := forall n, visit_ident i = Ok n -> name_text n.
Lemma p_ident_ok {Lx : lexis} ts i r : Forall tok_ok ts -> p_ident ts = Ok (i, r) -> id_ok i /\ Forall tok_ok r.
Proof.
  intros F H. destruct F as [|t ts Ht F]; [discriminate|].
  destruct t; cbn [p_ident] in H; try discriminate.
  - destruct (mem k non_reserved); [|discriminate]. injection H as <- <-. split; [|exact F].
    intros n E. injection E as <-. apply wordy_name, Ht.
  - injection H as <- <-. split; [|exact F]. intros n E. injection E as <-. now apply wordy_name.
  - injection H as <- <-. split; [|exact F]. intros n E. discriminate E.
  - injection H as <- <-. split; [|exact F]. intros n E. injection E as <-.
    destruct Ht as (b & D & ->). now apply quoted_name.
  - injection H as <- <-. split; [|exact F]. intros n E. discriminate E.
Qed.
