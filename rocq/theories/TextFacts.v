(** Quoted texts: which texts survive quoting, scanning and stripping. *)
From Coq Require Import String Ascii List ZArith NArith Bool Arith Lia.
From Verif Require Import PyStr StrFacts Lexer LexFacts ParseRel.
Import ListNotations.
Open Scope nat_scope.
Open Scope string_scope.

(** The quote [q] occurs only in doubled pairs: the text consists of pieces
    without [q], separated by two [q]s. *)
Definition doubled (q : ascii) (s : string) : Prop :=
  exists l, Forall (fun p => has_char q p = false) l /\ s = join (String q (String q "")) l.
(** The first and the last character are not [q]. *)
Definition no_edge (q : ascii) (s : string) : Prop :=
  (forall t, s <> String q t) /\ (forall t, s <> t ++ String q "").

(** * Doubled quotes *)
Lemma paired_app q p s : has_char q p = false -> paired q (p ++ s) = paired q s.
Proof.
  unfold has_char. induction p as [|c p IH]; intro H; [reflexivity|]. cbn [append paired]. cbn in H.
  apply orb_false_iff in H as [H1 H2]. rewrite Ascii.eqb_sym, H1. now apply IH.
Qed.
Lemma doubled_paired q s : doubled q s -> paired q s = true.
Proof.
  intros (l & Hl & ->). induction Hl as [|p l Hp Hl IH]; [reflexivity|].
  destruct l as [|p' l].
  - cbn [join String.concat]. rewrite <- (sapp_nil_r p). now rewrite paired_app.
  - unfold join in *. cbn [String.concat] in *. rewrite paired_app by exact Hp.
    cbn [append paired]. rewrite Ascii.eqb_refl. exact IH.
Qed.
Lemma paired_doubled_aux q n : forall s, String.length s <= n -> paired q s = true -> doubled q s.
Proof.
  induction n as [|n IH]; intros s Hn Hp.
  - destruct s; [|cbn in Hn; lia]. exists [""]. split; [repeat constructor | reflexivity].
  - destruct s as [|c s]. { exists [""]. split; [repeat constructor | reflexivity]. }
    cbn [paired] in Hp. cbn in Hn. destruct (Ascii.eqb c q) eqn:Ec.
    + apply Ascii.eqb_eq in Ec. subst c. destruct s as [|d s]; [discriminate|].
      apply andb_true_iff in Hp as [Hd Hp]. apply Ascii.eqb_eq in Hd. subst d. cbn in Hn.
      destruct (IH s ltac:(lia) Hp) as (l & Hl & ->).
      destruct l as [|p l]; [exists [""; ""] | exists ("" :: p :: l)];
        (split; [repeat (constructor; auto) | reflexivity]).
    + destruct (IH s ltac:(lia) Hp) as (l & Hl & ->).
      destruct l as [|p l].
      * exists [String c ""]. split; [|reflexivity]. constructor; [|constructor].
        unfold has_char. cbn. now rewrite Ascii.eqb_sym, Ec.
      * inversion Hl; subst. exists (String c p :: l). split.
        { constructor; [|assumption]. unfold has_char. cbn. now rewrite Ascii.eqb_sym, Ec. }
        destruct l; reflexivity.
Qed.
Lemma paired_doubled q s : paired q s = true <-> doubled q s.
Proof. split; [now apply (paired_doubled_aux q (String.length s))|apply doubled_paired]. Qed.

(** The scanner reads the text to its end only if it is [paired]. *)
Lemma scan_quoted_whole q n : forall s t,
  String.length s <= n -> scan_quoted q (s ++ String q "") = Some (t, "") -> paired q s = true.
Proof.
  induction n as [|n IH]; intros s t Hn H; destruct s as [|c s]; try reflexivity; [cbn in Hn; lia|].
  cbn [append scan_quoted] in H. cbn [paired]. cbn in Hn. destruct (Ascii.eqb c q) eqn:Ec.
  - destruct s as [|d s].
    + cbn [append] in H. rewrite Ascii.eqb_refl in H. cbn [scan_quoted] in H. discriminate.
    + cbn [append] in H. destruct (Ascii.eqb d q) eqn:Ed; [|discriminate].
      destruct (scan_quoted q (s ++ String q "")) as [[t' r]|] eqn:E; [|discriminate].
      injection H as <- ->. cbn in Hn. apply (IH s t'); [lia|exact E].
  - destruct (scan_quoted q (s ++ String q "")) as [[t' r]|] eqn:E; [|discriminate].
    injection H as <- ->. apply (IH s t'); [lia|exact E].
Qed.
Lemma sapp_last (a b : string) c d : a ++ String c "" = b ++ String d "" -> a = b /\ c = d.
Proof.
  revert b; induction a as [|x a IH]; intros [|y b] H.
  - injection H as ->. auto.
  - injection H as -> H. destruct b; discriminate.
  - injection H as -> H. destruct a; discriminate.
  - injection H as -> H. apply IH in H as [-> ->]. auto.
Qed.
Lemma scan_quoted_app q n : forall s t r,
  String.length s <= n -> scan_quoted q s = Some (t, r) -> s = t ++ r.
Proof.
  induction n as [|n IH]; intros s t r Hn H; destruct s as [|c s]; try discriminate; [cbn in Hn; lia|].
  cbn in Hn. cbn [scan_quoted] in H. destruct (Ascii.eqb c q) eqn:Ec.
  - destruct s as [|d s]; [now injection H as <- <-|].
    destruct (Ascii.eqb d q); [|now injection H as <- <-].
    destruct (scan_quoted q s) as [[t' r']|] eqn:E; [|now injection H as <- <-].
    injection H as <- <-. cbn in Hn. cbn [append]. do 2 f_equal. apply IH; [lia|exact E].
  - destruct (scan_quoted q s) as [[t' r']|] eqn:E; [|discriminate]. injection H as <- <-.
    cbn [append]. f_equal. apply IH; [lia|exact E].
Qed.
Lemma sapp_self a r : a = a ++ r -> r = "".
Proof.
  intro H. assert (String.length r = 0).
  { pose proof (f_equal String.length H) as L. rewrite slen_app in L. lia. }
  destruct r; [reflexivity|discriminate].
Qed.
Lemma literal_token_iff s : lex (quote_literal s) = [TString (quote_literal s)] <-> doubled squote s.
Proof.
  rewrite <- paired_doubled. split; intro H.
  - unfold quote_literal in H. rewrite lex_cons in H. unfold next_token in H.
    change (is_ws squote) with false in H. change (Ascii.eqb squote squote) with true in H. cbn iota in H.
    destruct (scan_quoted squote (s ++ String squote "")) as [[t r]|] eqn:E; [|discriminate].
    injection H as Ht _. pose proof (scan_quoted_app squote _ _ _ _ (le_n _) E) as S.
    rewrite Ht in S. apply sapp_self in S. subst r. exact (scan_quoted_whole squote _ s t (le_n _) E).
  - rewrite <- (sapp_nil_r (quote_literal s)) at 1. rewrite lex_quoted_literal by auto. reflexivity.
Qed.
Lemma identifier_token_iff s : lex (quote_identifier s) = [TQuoted (quote_identifier s)] <-> doubled dquote s.
Proof.
  rewrite <- paired_doubled. split; intro H.
  - unfold quote_identifier in H. rewrite lex_cons in H. unfold next_token in H.
    change (is_ws dquote) with false in H. change (Ascii.eqb dquote squote) with false in H.
    change (Ascii.eqb dquote dquote) with true in H. cbn iota in H.
    destruct (scan_quoted dquote (s ++ String dquote "")) as [[t r]|] eqn:E; [|discriminate].
    injection H as Ht _. pose proof (scan_quoted_app dquote _ _ _ _ (le_n _) E) as S.
    rewrite Ht in S. apply sapp_self in S. subst r. exact (scan_quoted_whole dquote _ s t (le_n _) E).
  - rewrite <- (sapp_nil_r (quote_identifier s)) at 1. rewrite lex_quoted_ident by auto. reflexivity.
Qed.

(** * Edges *)
Lemma rstrip_last q s : rstrip q (s ++ String q "") = rstrip q s.
Proof.
  induction s as [|c s IH]; cbn [append rstrip]; [now rewrite Ascii.eqb_refl|]. now rewrite IH.
Qed.
Lemma rstrip_len q s : String.length (rstrip q s) <= String.length s.
Proof.
  induction s as [|c s IH]; [auto|]. cbn [rstrip]. destruct (rstrip q s) eqn:E.
  - destruct (Ascii.eqb q c); cbn; lia.
  - cbn in *. lia.
Qed.
Lemma lstrip_len q s : String.length (lstrip q s) <= String.length s.
Proof. induction s as [|c s IH]; [auto|]. cbn [lstrip]. destruct (Ascii.eqb q c); cbn; lia. Qed.
Lemma rstrip_same q s : (forall t, s <> t ++ String q "") -> rstrip q s = s.
Proof.
  induction s as [|c s IH]; intro H; [reflexivity|]. cbn [rstrip].
  rewrite IH. 2:{ intros t ->. now apply (H (String c t)). }
  destruct s; [|reflexivity]. destruct (Ascii.eqb_spec q c) as [->|]; [|reflexivity]. now destruct (H "").
Qed.
Lemma lstrip_ends q s : lstrip q (s ++ String q "") = "" \/ exists t, lstrip q (s ++ String q "") = t ++ String q "".
Proof.
  induction s as [|c s IH]; cbn [append lstrip]; [rewrite Ascii.eqb_refl; auto|].
  destruct (Ascii.eqb q c); [exact IH|]. right. now exists (String c s).
Qed.
Lemma inner_iff q s : inner q s = true <-> no_edge q s.
Proof.
  unfold inner. rewrite String.eqb_eq. unfold strip. cbn [lstrip]. rewrite Ascii.eqb_refl. split.
  - intro H. split; intros t ->.
    + cbn [append lstrip] in H. rewrite Ascii.eqb_refl in H.
      pose proof (lstrip_len q (t ++ String q "")) as L. rewrite slen_app in L. cbn in L.
      destruct (lstrip_ends q t) as [E|[u E]]; rewrite E in H, L; [discriminate|].
      rewrite rstrip_last in H. rewrite slen_app in L. cbn in L.
      pose proof (f_equal String.length H) as G. cbn in G. pose proof (rstrip_len q u). lia.
    + destruct t as [|c t].
      { cbn [append lstrip] in H. rewrite Ascii.eqb_refl in H. discriminate. }
      cbn [append lstrip] in H. destruct (Ascii.eqb q c) eqn:E.
      * pose proof (lstrip_len q ((t ++ String q "") ++ String q "")) as L.
        rewrite !slen_app in L. cbn in L.
        destruct (lstrip_ends q (t ++ String q "")) as [E'|[u E']]; rewrite E' in H, L; [discriminate|].
        rewrite rstrip_last in H. rewrite slen_app in L. cbn in L.
        pose proof (f_equal String.length H) as G. cbn in G. rewrite slen_app in G. cbn in G.
        pose proof (rstrip_len q u). lia.
      * change (rstrip q (((String c t) ++ String q "") ++ String q "") = String c t ++ String q "") in H.
        rewrite !rstrip_last in H. pose proof (rstrip_len q (String c t)) as L. rewrite H, slen_app in L.
        cbn in L. lia.
  - intros [H1 H2]. destruct s as [|c s]; [cbn; now rewrite Ascii.eqb_refl|].
    cbn [append lstrip]. destruct (Ascii.eqb_spec q c) as [->|]; [now destruct (H1 s)|].
    change (String c (s ++ String q "")) with (String c s ++ String q "").
    rewrite rstrip_last. now apply rstrip_same.
Qed.
