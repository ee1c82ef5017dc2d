(** Facts about the lexer: unfolding, and how lexing distributes over the
    pieces that the printer concatenates. *)
From Coq Require Import String Ascii List ZArith NArith Bool Lia Arith.
From Verif Require Import PyStr StrFacts Lexer.
Import ListNotations.
Open Scope string_scope.

(** * Every step consumes input *)

Lemma span_app f s a b : span f s = (a, b) -> s = a ++ b.
Proof.
  revert a b; induction s as [|c s IH]; cbn; intros a b H.
  - injection H as <- <-; reflexivity.
  - destruct (f c).
    + destruct (span f s) as [a' b'] eqn:E. injection H as <- <-. cbn. f_equal; auto.
    + injection H as <- <-; reflexivity.
Qed.
Lemma span_len f s a b : span f s = (a, b) -> String.length b <= String.length s.
Proof. intro H; apply span_app in H; subst; rewrite slen_app; lia. Qed.
Lemma span_spec f a k :
  str_forall f a = true ->
  match k with "" => True | String c _ => f c = false end ->
  span f (a ++ k) = (a, k).
Proof.
  induction a as [|c a IH]; cbn; intros Ha Hk.
  - destruct k as [|c k]; cbn; [reflexivity | now rewrite Hk].
  - apply andb_true_iff in Ha; destruct Ha as [Hc Ha].
    rewrite Hc, IH by assumption; reflexivity.
Qed.
Lemma span_all f a : str_forall f a = true -> span f a = (a, "").
Proof. intro H; rewrite <- (sapp_nil_r a) at 1; apply span_spec; auto. Qed.
Lemma span_forall f s a b : span f s = (a, b) -> str_forall f a = true.
Proof.
  revert a b; induction s as [|c s IH]; cbn; intros a b H.
  - injection H as <- <-; reflexivity.
  - destruct (f c) eqn:Hc.
    + destruct (span f s) as [a' b'] eqn:E. injection H as <- <-. cbn.
      rewrite Hc; eauto.
    + injection H as <- <-; reflexivity.
Qed.

Lemma scan_quoted_len_aux q n : forall s t r,
  String.length s <= n ->
  scan_quoted q s = Some (t, r) -> String.length r < String.length s.
Proof.
  induction n as [|n IH]; intros s t r Hn H.
  - destruct s; cbn in *; [discriminate | lia].
  - destruct s as [|c s]; cbn in H; [discriminate|].
    cbn in Hn |- *.
    destruct (Ascii.eqb c q).
    + destruct s as [|d s].
      * injection H as _ <-; cbn; lia.
      * destruct (Ascii.eqb d q).
        -- destruct (scan_quoted q s) as [[t' r']|] eqn:E.
           ++ injection H as _ <-. apply IH in E; cbn in *; lia.
           ++ injection H as _ <-; cbn; lia.
        -- injection H as _ <-; cbn; lia.
    + destruct (scan_quoted q s) as [[t' r']|] eqn:E; [|discriminate].
      injection H as _ <-. apply IH in E; lia.
Qed.
Lemma scan_quoted_len q s t r :
  scan_quoted q s = Some (t, r) -> String.length r < String.length s.
Proof. eapply scan_quoted_len_aux; reflexivity. Qed.
Lemma scan_binary_len s : forall t r,
  scan_binary s = Some (t, r) -> String.length r < String.length s.
Proof.
  induction s as [|c s IH]; cbn; intros t r H; [discriminate|].
  destruct (Ascii.eqb c squote).
  - injection H as _ <-; lia.
  - destruct (scan_binary s) as [[t' r']|]; [|discriminate].
    specialize (IH _ _ eq_refl). injection H as _ <-; lia.
Qed.
Lemma scan_exponent_len s t r :
  scan_exponent s = Some (t, r) -> String.length r <= String.length s.
Proof.
  destruct s as [|c s]; cbn [scan_exponent]; [discriminate|].
  destruct (Ascii.eqb c "E"); [|discriminate].
  destruct s as [|d s].
  - cbn; discriminate.
  - destruct (Ascii.eqb d "+" || Ascii.eqb d "-")%bool.
    + destruct (span is_digit s) as [ds r'] eqn:E. apply span_len in E.
      destruct ds; [discriminate|]. intro H; injection H as _ <-; cbn; lia.
    + destruct (span is_digit (String d s)) as [ds r'] eqn:E. apply span_len in E.
      destruct ds; [discriminate|]. intro H; injection H as _ <-; cbn in *; lia.
Qed.
Lemma number_token_len c s t r :
  is_digit c = true ->
  number_token (String c s) = (t, r) -> String.length r <= String.length s.
Proof.
  intros Hc; unfold number_token.
  destruct (span is_digit (String c s)) as [ds r0] eqn:E.
  assert (Hr0 : String.length r0 <= String.length s).
  { cbn in E; rewrite Hc in E. destruct (span is_digit s) eqn:E'.
    injection E as _ <-. apply span_len in E'; lia. }
  destruct (span is_word (String c s)) as [w wr] eqn:Ew.
  assert (Hwr : String.length wr <= String.length s).
  { cbn in Ew; rewrite (digit_is_word _ Hc) in Ew. destruct (span is_word s) eqn:E'.
    injection Ew as _ <-. apply span_len in E'; lia. }
  destruct r0 as [|d r1].
  - destruct (Nat.ltb _ _); intro H; injection H as _ <-; lia.
  - cbn [String.length] in Hr0.
    destruct (Ascii.eqb d ".").
    + destruct (span is_digit r1) as [fs r2] eqn:E2. apply span_len in E2.
      destruct (scan_exponent r2) as [[e r3]|] eqn:E3.
      * apply scan_exponent_len in E3.
        destruct (Nat.ltb _ _); intro H; injection H as _ <-; lia.
      * destruct (Nat.ltb _ _); intro H; injection H as _ <-; lia.
    + destruct (scan_exponent (String d r1)) as [[e r3]|] eqn:E3.
      * apply scan_exponent_len in E3; cbn [String.length] in E3.
        destruct (Nat.ltb _ _); intro H; injection H as _ <-; lia.
      * destruct (Nat.ltb _ _); intro H; injection H as _ <-; cbn; lia.
Qed.
Lemma skip_line_len s : String.length (skip_line s) <= String.length s.
Proof.
  induction s as [|c s IH]; cbn; [lia|].
  destruct (N.eqb (code c) 10); [lia|].
  destruct (N.eqb (code c) 13); [|lia].
  destruct s as [|d s]; [lia|]. destruct (N.eqb (code d) 10); cbn; lia.
Qed.
Lemma skip_comment_len_aux n : forall s r,
  String.length s <= n -> skip_comment s = Some r -> String.length r <= String.length s.
Proof.
  induction n as [|n IH]; intros s r Hn H.
  - destruct s; cbn in *; [discriminate | lia].
  - destruct s as [|c s]; cbn in H; [discriminate|].
    destruct s as [|d s]; [discriminate|].
    destruct (Ascii.eqb c "*" && Ascii.eqb d "/")%bool.
    + injection H as <-; cbn; lia.
    + apply IH in H; cbn in *; lia.
Qed.
Lemma skip_comment_len s r : skip_comment s = Some r -> String.length r <= String.length s.
Proof. eapply skip_comment_len_aux; reflexivity. Qed.

Lemma next_token_len c s o r :
  next_token c s = (o, r) -> String.length r <= String.length s.
Proof.
  unfold next_token.
  destruct (is_ws c); [intro H; injection H as _ <-; lia|].
  destruct (Ascii.eqb c squote).
  { destruct (scan_quoted squote s) as [[t r']|] eqn:E; intro H; injection H as _ <-.
    - apply scan_quoted_len in E; lia.
    - lia. }
  destruct (Ascii.eqb c dquote).
  { destruct (scan_quoted dquote s) as [[t r']|] eqn:E; intro H; injection H as _ <-.
    - apply scan_quoted_len in E; lia.
    - lia. }
  destruct (Ascii.eqb c "`").
  { destruct (scan_quoted "`" s) as [[t r']|] eqn:E; intro H; injection H as _ <-.
    - apply scan_quoted_len in E; lia.
    - lia. }
  destruct (is_digit c) eqn:Hd.
  { destruct (number_token (String c s)) as [t r'] eqn:E.
    intro H; injection H as _ <-. eapply number_token_len; eassumption. }
  destruct (is_letter c || Ascii.eqb c "_")%bool eqn:Hl.
  { destruct (span is_word (String c s)) as [w wr] eqn:E.
    assert (Hw : String.length wr <= String.length s).
    { cbn in E. assert (Hc : is_word c = true).
      { unfold is_word. apply orb_true_iff in Hl; destruct Hl as [Hl|Hl]; rewrite Hl;
          [reflexivity | apply orb_true_r]. }
      rewrite Hc in E. destruct (span is_word s) eqn:E'. injection E as _ <-.
      apply span_len in E'; lia. }
    destruct (String.eqb w "U").
    { destruct wr as [|a [|b wr]]; try (intro H; injection H as _ <-; lia).
      destruct (Ascii.eqb a "&" && Ascii.eqb b squote)%bool; [|intro H; injection H as _ <-; lia].
      destruct (scan_quoted squote wr) as [[t r2]|] eqn:E2; intro H; injection H as _ <-; [|lia].
      apply scan_quoted_len in E2; cbn in Hw; lia. }
    destruct (String.eqb w "X").
    { destruct wr as [|a wr]; try (intro H; injection H as _ <-; lia).
      destruct (Ascii.eqb a squote); [|intro H; injection H as _ <-; lia].
      destruct (scan_binary wr) as [[t r2]|] eqn:E2; intro H; injection H as _ <-; [|lia].
      apply scan_binary_len in E2; cbn in Hw; lia. }
    intro H; injection H as _ <-; lia. }
  destruct (existsb (Ascii.eqb c) one_char_syms); [intro H; injection H as _ <-; lia|].
  assert (Hrest : String.length (match s with String _ r => r | "" => "" end) <= String.length s)
    by (destruct s; cbn; lia).
  set (rest2 := match s with String _ r => r | "" => "" end) in *.
  destruct (Ascii.eqb c ".").
  { destruct s as [|d s]; [intro H; injection H as _ <-; lia|].
    destruct (is_digit d); [|intro H; injection H as _ <-; lia].
    destruct (span is_digit (String d s)) as [fs r'] eqn:E. apply span_len in E.
    destruct (scan_exponent r') as [[e r2]|] eqn:E2; intro H; injection H as _ <-.
    - apply scan_exponent_len in E2; lia.
    - lia. }
  destruct (Ascii.eqb c "-").
  { repeat match goal with |- context [if ?b then _ else _] => destruct b end;
      intro H; injection H as _ <-; try lia.
    pose proof (skip_line_len rest2); lia. }
  destruct (Ascii.eqb c "/").
  { match goal with |- context [if ?b then _ else _] => destruct b end.
    - destruct (skip_comment rest2) as [r'|] eqn:E; intro H; injection H as _ <-; [|lia].
      apply skip_comment_len in E; lia.
    - intro H; injection H as _ <-; lia. }
  repeat match goal with |- context [if Ascii.eqb c ?x then _ else _] => destruct (Ascii.eqb c x) end;
    repeat match goal with |- context [if ?b then _ else _] => destruct b end;
    intro H; injection H as _ <-; lia.
Qed.

Lemma lex_fuel_enough n m s :
  String.length s <= n -> String.length s <= m -> lex_fuel n s = lex_fuel m s.
Proof.
  revert m s; induction n as [|n IH]; intros m s Hn Hm.
  - destruct s; cbn in Hn; [|lia]. destruct m; reflexivity.
  - destruct s as [|c s]; [destruct m; reflexivity|].
    destruct m as [|m]; cbn in Hm, Hn; [lia|].
    cbn [lex_fuel].
    destruct (next_token c s) as [o r] eqn:E. apply next_token_len in E.
    rewrite (IH m r) by lia. reflexivity.
Qed.

Lemma lex_nil : lex "" = [].
Proof. reflexivity. Qed.
Lemma lex_cons c s :
  lex (String c s) =
  match next_token c s with
  | (Some t, r) => t :: lex r
  | (None, r) => lex r
  end.
Proof.
  unfold lex; cbn [String.length lex_fuel].
  destruct (next_token c s) as [o r] eqn:E. apply next_token_len in E.
  rewrite (lex_fuel_enough (String.length s) (String.length r) r) by lia. reflexivity.
Qed.

(** * Continuations that never extend a token *)

Definition stop_char (c : ascii) : bool :=
  existsb (Ascii.eqb c) [" "%char; ","%char; ")"%char; "("%char; "]"%char; "["%char; nl].
Definition stop (k : string) : bool :=
  match k with "" => true | String c _ => stop_char c end.

Lemma stop_char_not_word : forall c, stop_char c = true -> is_word c = false.
Proof.
  assert (H : forall c, implb (stop_char c) (negb (is_word c)) = true) by by_all_ascii.
  intros c Hc; specialize (H c); rewrite Hc in H; now apply negb_true_iff.
Qed.
Lemma stop_char_no_quote : forall c, stop_char c = true ->
  Ascii.eqb c "&" = false /\ Ascii.eqb c squote = false /\ Ascii.eqb c dquote = false
  /\ Ascii.eqb c "." = false /\ is_digit c = false /\ Ascii.eqb c "E" = false.
Proof.
  assert (H : forall c, implb (stop_char c)
    (negb (Ascii.eqb c "&") && negb (Ascii.eqb c squote) && negb (Ascii.eqb c dquote)
     && negb (Ascii.eqb c ".") && negb (is_digit c) && negb (Ascii.eqb c "E"))%bool = true)
    by by_all_ascii.
  intros c Hc; specialize (H c); rewrite Hc in H; cbn [implb] in H.
  rewrite !andb_true_iff, !negb_true_iff in H; tauto.
Qed.

(** * Literal pieces *)

(** Lexing [p] never looks beyond the end of [p] (mode [any]), or looks only at
    a stop character ([any = false]). *)
Definition step_ok (any : bool) (c : ascii) (s : string) : bool :=
  if is_ws c then true
  else if existsb (Ascii.eqb c) one_char_syms then true
  else if (is_letter c || Ascii.eqb c "_")%bool then
    let '(w, r) := span is_word (String c s) in
    (match r with "" => negb any | _ => negb (String.eqb w "U" || String.eqb w "X") end)%bool
  else match s with
       | String d _ =>
           (existsb (Ascii.eqb c) ["<"; ">"; "="; "-"; "/"; "|"; "."]%char && Ascii.eqb d " "
            || (Ascii.eqb c "<" && (Ascii.eqb d "=" || Ascii.eqb d ">"))
            || (Ascii.eqb c ">" && Ascii.eqb d "=")
            || (Ascii.eqb c "-" && Ascii.eqb d ">")
            || (Ascii.eqb c "." && Ascii.eqb d "*"))%bool
       | "" => false
       end.
Fixpoint piece_fuel (any : bool) (n : nat) (p : string) : bool :=
  match n with
  | O => true
  | S n =>
      match p with
      | "" => true
      | String c s => (step_ok any c s && piece_fuel any n (snd (next_token c s)))%bool
      end
  end.
Definition piece (any : bool) (p : string) : bool := piece_fuel any (String.length p) p.

Lemma span_more f s w d r k :
  span f s = (w, String d r) -> span f (s ++ k) = (w, String d r ++ k).
Proof.
  revert w d r; induction s as [|c s IH]; cbn; intros w d r H; [discriminate|].
  destruct (f c) eqn:Hc.
  - destruct (span f s) as [a b] eqn:E. injection H as <- ->.
    rewrite (IH _ _ _ eq_refl); reflexivity.
  - injection H as <- <- <-; reflexivity.
Qed.

Lemma step_ok_local any c s k :
  step_ok any c s = true ->
  (any = true \/ stop k = true) ->
  forall o r, next_token c s = (o, r) -> next_token c (s ++ k) = (o, r ++ k).
Proof.
  unfold step_ok, next_token; intros Hs Hk o r.
  destruct (is_ws c) eqn:Hws; [intro H; injection H as <- <-; reflexivity|].
  destruct (existsb (Ascii.eqb c) one_char_syms) eqn:Hsym.
  { assert (G : forall c, implb (existsb (Ascii.eqb c) one_char_syms)
       (negb (Ascii.eqb c squote) && negb (Ascii.eqb c dquote) && negb (Ascii.eqb c "`")
        && negb (is_digit c) && negb (is_letter c || Ascii.eqb c "_"))%bool = true) by by_all_ascii.
    specialize (G c); rewrite Hsym in G; cbn [implb] in G.
    rewrite !andb_true_iff, !negb_true_iff in G.
    destruct G as ((((-> & ->) & ->) & ->) & ->).
    intro H; injection H as <- <-; reflexivity. }
  destruct (is_letter c || Ascii.eqb c "_")%bool eqn:Hl.
  { assert (G : forall c, implb (is_letter c || Ascii.eqb c "_")
       (negb (Ascii.eqb c squote) && negb (Ascii.eqb c dquote) && negb (Ascii.eqb c "`")
        && negb (is_digit c))%bool = true) by by_all_ascii.
    specialize (G c); rewrite Hl in G; cbn [implb] in G.
    rewrite !andb_true_iff, !negb_true_iff in G.
    destruct G as (((-> & ->) & ->) & ->).
    change (String c s ++ k) with (String c s ++ k).
    destruct (span is_word (String c s)) as [w r0] eqn:E.
    destruct r0 as [|d r0].
    - apply negb_true_iff in Hs; subst any. destruct Hk as [Hk|Hk]; [discriminate|].
      pose proof (span_app _ _ _ _ E) as Happ; rewrite sapp_nil_r in Happ.
      pose proof (span_forall _ _ _ _ E) as Hall.
      assert (E2 : span is_word (String c (s ++ k)) = (w, k)).
      { change (String c (s ++ k)) with (String c s ++ k). rewrite Happ.
        apply span_spec; [exact Hall|].
        destruct k as [|d k]; [exact I|]. cbn in Hk. apply stop_char_not_word, Hk. }
      rewrite E2.
      assert (Hnr : forall (A : Type) (x y : A),
                 match k with String a _ => if Ascii.eqb a squote then x else y | "" => y end = y).
      { intros; destruct k as [|a k]; [reflexivity|]. cbn in Hk.
        apply stop_char_no_quote in Hk; destruct Hk as (_ & Hk & _). now rewrite Hk. }
      destruct (String.eqb w "U").
      { intro H; injection H as <- <-.
        destruct k as [|a [|b k]]; [reflexivity | reflexivity |].
        cbn in Hk; apply stop_char_no_quote in Hk; destruct Hk as (Hk & _).
        rewrite Hk; reflexivity. }
      destruct (String.eqb w "X").
      { intro H; injection H as <- <-.
        destruct k as [|a k]; [reflexivity|].
        cbn in Hk; apply stop_char_no_quote in Hk; destruct Hk as (_ & Hk & _).
        rewrite Hk; reflexivity. }
      intro H; injection H as <- <-; reflexivity.
    - apply negb_true_iff, orb_false_iff in Hs; destruct Hs as [Hu Hx].
      rewrite Hu, Hx.
      change (String c (s ++ k)) with (String c s ++ k).
      rewrite (span_more _ _ _ _ _ k E), Hu, Hx.
      intro H; injection H as <- <-; reflexivity. }
  destruct s as [|d s]; [discriminate|].
  assert (G : forall c, implb
      (existsb (Ascii.eqb c) ["<"; ">"; "="; "-"; "/"; "|"; "."]%char)
       (negb (Ascii.eqb c squote) && negb (Ascii.eqb c dquote) && negb (Ascii.eqb c "`")
        && negb (is_digit c))%bool = true) by by_all_ascii.
  assert (Hin : existsb (Ascii.eqb c) ["<"; ">"; "="; "-"; "/"; "|"; "."]%char = true).
  { destruct (existsb (Ascii.eqb c) ["<"; ">"; "="; "-"; "/"; "|"; "."]%char) eqn:Ex; [reflexivity|].
    cbn [existsb] in Ex. rewrite !orb_false_iff in Ex.
    destruct Ex as (E1 & E2 & E3 & E4 & E5 & E6 & E7 & _).
    rewrite E1, E2, E4, E7 in Hs. discriminate. }
  specialize (G c); rewrite Hin in G; cbn [implb] in G.
  rewrite !andb_true_iff, !negb_true_iff in G.
  destruct G as (((-> & ->) & ->) & ->).
  rewrite Hin in Hs; cbn [andb] in Hs.
  cbn [append].
  destruct (Ascii.eqb_spec d " ") as [->|Hd].
  - (* a one-character operator followed by a blank *)
    clear Hs. cbn [existsb] in Hin.
    destruct (Ascii.eqb_spec c ".") as [->|_].
    { cbn. intro H; injection H as <- <-; reflexivity. }
    destruct (Ascii.eqb_spec c "-") as [->|_].
    { cbn. intro H; injection H as <- <-; reflexivity. }
    destruct (Ascii.eqb_spec c "/") as [->|_].
    { cbn. intro H; injection H as <- <-; reflexivity. }
    destruct (Ascii.eqb_spec c "<") as [->|_].
    { cbn. intro H; injection H as <- <-; reflexivity. }
    destruct (Ascii.eqb_spec c ">") as [->|_].
    { cbn. intro H; injection H as <- <-; reflexivity. }
    destruct (Ascii.eqb_spec c "=") as [->|_].
    { cbn. intro H; injection H as <- <-; reflexivity. }
    destruct (Ascii.eqb_spec c "!") as [->|_].
    { cbn. intro H; injection H as <- <-; reflexivity. }
    destruct (Ascii.eqb_spec c "|") as [->|_].
    { cbn. intro H; injection H as <- <-; reflexivity. }
    cbn in Hin; discriminate.
  - cbn [orb] in Hs.
    destruct (Ascii.eqb_spec c "<") as [->|Hlt].
    { cbn [andb Ascii.eqb orb Bool.eqb] in Hs.
      rewrite !orb_false_r in Hs.
      destruct (Ascii.eqb_spec d "=") as [->|_].
      { cbn. intro H; injection H as <- <-; reflexivity. }
      destruct (Ascii.eqb_spec d ">") as [->|_].
      { cbn. intro H; injection H as <- <-; reflexivity. }
      discriminate. }
    destruct (Ascii.eqb_spec c ">") as [->|Hgt].
    { cbn [andb Ascii.eqb orb Bool.eqb] in Hs. rewrite !orb_false_r in Hs.
      destruct (Ascii.eqb_spec d "=") as [->|_]; [|discriminate].
      cbn. intro H; injection H as <- <-; reflexivity. }
    destruct (Ascii.eqb_spec c "-") as [->|Hm].
    { cbn [andb Ascii.eqb orb Bool.eqb] in Hs. rewrite ?orb_false_r in Hs.
      destruct (Ascii.eqb_spec d ">") as [->|_]; [|discriminate].
      cbn. intro H; injection H as <- <-; reflexivity. }
    destruct (Ascii.eqb_spec c ".") as [->|Hp]; [|discriminate].
    cbn [andb Ascii.eqb orb Bool.eqb] in Hs.
    destruct (Ascii.eqb_spec d "*") as [->|_]; [|discriminate].
    cbn. intro H; injection H as <- <-; reflexivity.
Qed.

Lemma piece_fuel_app any n : forall p k,
  String.length p <= n ->
  piece_fuel any n p = true ->
  (any = true \/ stop k = true) ->
  lex (p ++ k) = (lex p ++ lex k)%list.
Proof.
  induction n as [|n IH]; intros p k Hn Hp Hk.
  - destruct p; cbn in Hn; [reflexivity | lia].
  - destruct p as [|c s]; [reflexivity|].
    cbn [piece_fuel] in Hp. apply andb_true_iff in Hp; destruct Hp as [Hs Hp].
    cbn [append]. rewrite !lex_cons.
    destruct (next_token c s) as [o r] eqn:E.
    rewrite (step_ok_local _ _ _ _ Hs Hk _ _ E).
    pose proof (next_token_len _ _ _ _ E) as Hlen. cbn [snd] in Hp. cbn in Hn.
    destruct o as [t|]; rewrite (IH r k) by (assumption || lia); reflexivity.
Qed.

(** A piece that ends in a closed token or a blank. *)
Lemma lex_piece p k : piece true p = true -> lex (p ++ k) = (lex p ++ lex k)%list.
Proof. intro H; eapply piece_fuel_app; [reflexivity | exact H | now left]. Qed.
(** A piece that may end in a word, before a stop character. *)
Lemma lex_piece_stop p k :
  piece false p = true -> stop k = true -> lex (p ++ k) = (lex p ++ lex k)%list.
Proof. intros H Hk; eapply piece_fuel_app; [reflexivity | exact H | now right]. Qed.

(** [lexes s ts]: before any stop character, [s] reads as the tokens [ts]. *)
Definition lexes (s : string) (ts : list token) : Prop :=
  forall k, stop k = true -> lex (s ++ k) = (ts ++ lex k)%list.

Lemma lexes_lex s ts : lexes s ts -> lex s = ts.
Proof. intro H; rewrite <- (sapp_nil_r s), H, lex_nil, app_nil_r by reflexivity; reflexivity. Qed.
Lemma lexes_piece p : piece false p = true -> lexes p (lex p).
Proof. intros H k Hk; apply lex_piece_stop; assumption. Qed.
Lemma lexes_any p : piece true p = true -> lexes p (lex p).
Proof. intros H k _; apply lex_piece; assumption. Qed.
Lemma lexes_app a b ta tb :
  lexes a ta -> (forall k, stop k = true -> stop (b ++ k) = true) -> lexes b tb -> lexes (a ++ b) (ta ++ tb).
Proof.
  intros Ha Hs Hb k Hk. rewrite sapp_assoc, Ha by auto. rewrite Hb by assumption.
  apply app_assoc.
Qed.

(** * Numbers *)

Lemma lex_digits ds k :
  str_forall is_digit ds = true -> ds <> "" -> stop k = true ->
  lex (ds ++ k) = TInt ds :: lex k.
Proof.
  intros Hd Hne Hk. destruct ds as [|c ds]; [congruence|].
  cbn in Hd; apply andb_true_iff in Hd; destruct Hd as [Hc Hd].
  assert (G : forall c, implb (is_digit c)
       (negb (is_ws c) && negb (Ascii.eqb c squote) && negb (Ascii.eqb c dquote)
        && negb (Ascii.eqb c "`"))%bool = true) by by_all_ascii.
  specialize (G c); rewrite Hc in G; cbn [implb] in G.
  rewrite !andb_true_iff, !negb_true_iff in G. destruct G as (((G1 & G2) & G3) & G4).
  cbn [append]; rewrite lex_cons; unfold next_token.
  rewrite G1, G2, G3, G4, Hc.
  assert (Hall : str_forall is_digit (String c ds) = true) by (cbn; rewrite Hc, Hd; reflexivity).
  assert (Hk' : match k with "" => True | String c _ => is_digit c = false end).
  { destruct k; [exact I|]. cbn in Hk. apply stop_char_no_quote in Hk. tauto. }
  assert (Hkw : match k with "" => True | String c _ => is_word c = false end).
  { destruct k; [exact I|]. cbn in Hk. apply stop_char_not_word, Hk. }
  unfold number_token.
  change (String c (ds ++ k)) with (String c ds ++ k).
  rewrite (span_spec is_digit _ k Hall Hk').
  rewrite (span_spec is_word _ k (str_forall_impl _ _ _ digit_is_word Hall) Hkw).
  destruct k as [|d k].
  - rewrite Nat.ltb_irrefl; reflexivity.
  - cbn in Hk; apply stop_char_no_quote in Hk.
    destruct Hk as (_ & _ & _ & Hdot & _ & HE). rewrite Hdot.
    unfold scan_exponent; rewrite HE, Nat.ltb_irrefl; reflexivity.
Qed.

Lemma lexes_N n : lexes (str_of_N n) [TInt (str_of_N n)].
Proof.
  intros k Hk. destruct (str_of_N_cons n) as (c & r & E & _).
  apply lex_digits; [apply str_of_N_digits | rewrite E; discriminate | exact Hk].
Qed.

(** Read a literal prefix of the text under [lex]. *)
Ltac lex_value p :=
  let v := eval vm_compute in (lex p) in
  let E := fresh in
  assert (E : lex p = v) by (vm_compute; reflexivity);
  rewrite E; clear E.
Ltac lex_lit :=
  match goal with
  | |- context [lex (String ?c ?s ++ ?k)] =>
      rewrite (lex_piece (String c s) k) by (vm_compute; reflexivity);
      lex_value (String c s)
  | |- context [lex (String ?c ?s ++ ?k)] =>
      rewrite (lex_piece_stop (String c s) k) by
        (first [assumption | vm_compute; reflexivity | reflexivity]);
      lex_value (String c s)
  end.

(** * Joined lists *)
Fixpoint tjoin (d : list token) (l : list (list token)) : list token :=
  match l with
  | [] => []
  | [x] => x
  | x :: r => (x ++ d ++ tjoin d r)%list
  end.

Lemma join_cons2 d x y l : join d (x :: y :: l) = x ++ d ++ join d (y :: l).
Proof. reflexivity. Qed.
Lemma tjoin_cons2 d x y l : tjoin d (x :: y :: l) = (x ++ d ++ tjoin d (y :: l))%list.
Proof. reflexivity. Qed.

Lemma lexes_join d ss ts :
  piece true d = true -> (forall k, stop (d ++ k) = true) ->
  Forall2 lexes ss ts -> lexes (join d ss) (tjoin (lex d) ts).
Proof.
  intros Hd Hs H. induction H as [|s t ss ts Hst Hr IH]; [intros k _; reflexivity|].
  destruct Hr as [|s' t' ss ts Hst' Hr].
  - exact Hst.
  - rewrite join_cons2, tjoin_cons2. intros k Hk.
    rewrite !sapp_assoc, Hst by apply Hs. rewrite lex_piece by exact Hd.
    rewrite IH by exact Hk. rewrite <- !app_assoc. reflexivity.
Qed.

(** * Quoted texts *)

(** No closing quote inside: quotes [q] occur only in doubled pairs. *)
Fixpoint paired (q : ascii) (s : string) : bool :=
  match s with
  | "" => true
  | String c s' =>
      if Ascii.eqb c q then
        match s' with
        | String d s'' => (Ascii.eqb d q && paired q s'')%bool
        | "" => false
        end
      else paired q s'
  end.

Definition not_first (q : ascii) (k : string) : bool :=
  match k with "" => true | String c _ => negb (Ascii.eqb c q) end.

Lemma scan_quoted_spec q n : forall s k,
  String.length s <= n -> paired q s = true -> not_first q k = true ->
  scan_quoted q (s ++ String q k) = Some (s ++ String q "", k).
Proof.
  induction n as [|n IH]; intros s k Hn Hp Hk.
  - destruct s; cbn in Hn; [|lia]. cbn [append scan_quoted].
    rewrite Ascii.eqb_refl. destruct k as [|d k]; [reflexivity|].
    cbn in Hk; apply negb_true_iff in Hk; now rewrite Hk.
  - destruct s as [|c s].
    { cbn [append scan_quoted].
      rewrite Ascii.eqb_refl. destruct k as [|d k]; [reflexivity|].
      cbn in Hk; apply negb_true_iff in Hk; now rewrite Hk. }
    cbn [append]. cbn [scan_quoted]. cbn [paired] in Hp. cbn in Hn.
    destruct (Ascii.eqb c q) eqn:Ec.
    + destruct s as [|d s]; [discriminate|]. apply andb_true_iff in Hp; destruct Hp as [Hd Hp].
      cbn [append]. rewrite Hd. rewrite IH; [reflexivity | cbn in Hn; lia | exact Hp | exact Hk].
    + rewrite IH; [reflexivity | lia | exact Hp | exact Hk].
Qed.

Lemma lex_quoted_ident s k :
  paired dquote s = true -> not_first dquote k = true ->
  lex (quote_identifier s ++ k) = TQuoted (quote_identifier s) :: lex k.
Proof.
  intros Hp Hk. unfold quote_identifier. cbn [append]. rewrite sapp_assoc. cbn [append].
  rewrite lex_cons. unfold next_token.
  change (is_ws dquote) with false. change (Ascii.eqb dquote squote) with false.
  change (Ascii.eqb dquote dquote) with true. cbn iota.
  rewrite (scan_quoted_spec dquote (String.length s)) by auto. reflexivity.
Qed.
Lemma lex_quoted_literal s k :
  paired squote s = true -> not_first squote k = true ->
  lex (quote_literal s ++ k) = TString (quote_literal s) :: lex k.
Proof.
  intros Hp Hk. unfold quote_literal. cbn [append]. rewrite sapp_assoc. cbn [append].
  rewrite lex_cons. unfold next_token.
  change (is_ws squote) with false. change (Ascii.eqb squote squote) with true. cbn iota.
  rewrite (scan_quoted_spec squote (String.length s)) by auto. reflexivity.
Qed.
Lemma stop_not_first_d k : stop k = true -> not_first dquote k = true.
Proof.
  destruct k as [|c k]; cbn; [auto|]. intro H; apply stop_char_no_quote in H.
  apply negb_true_iff; tauto.
Qed.
Lemma stop_not_first_s k : stop k = true -> not_first squote k = true.
Proof.
  destruct k as [|c k]; cbn; [auto|]. intro H; apply stop_char_no_quote in H.
  apply negb_true_iff; tauto.
Qed.
Lemma lexes_ident s : paired dquote s = true -> lexes (quote_identifier s) [TQuoted (quote_identifier s)].
Proof. intros H k Hk; apply lex_quoted_ident; [exact H | now apply stop_not_first_d]. Qed.
Lemma lexes_literal s : paired squote s = true -> lexes (quote_literal s) [TString (quote_literal s)].
Proof. intros H k Hk; apply lex_quoted_literal; [exact H | now apply stop_not_first_s]. Qed.
