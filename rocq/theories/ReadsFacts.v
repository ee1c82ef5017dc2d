(** How the lexer reads texts of several lines: [reads s ts] says that [s] is a
    sequence of lines, cut at line feeds that are not inside a token, whose
    tokens are [ts].  Padding and layout keep it. *)
From Coq Require Import String Ascii List ZArith NArith Bool Lia Arith.
From Verif Require Import PyStr StrFacts Lexer LexFacts Printer PrinterFacts Types Inference TypeRoundTrip Functions Ast Sql Tokens.
Import ListNotations.
Open Scope nat_scope.
Open Scope string_scope.

Definition line (l : string) : Prop := str_exists is_break l = false.

Inductive reads : string -> list token -> Prop :=
| rd_last l ts : line l -> lexes l ts -> reads l ts
| rd_cons l ts s tss :
    line l -> lexes l ts -> reads s tss -> reads (l ++ nls ++ s) (ts ++ tss)%list.

(** Text of one line whose tokens do not depend on what follows. *)
Definition closed (s : string) (ts : list token) : Prop :=
  line s /\ forall k, lex (s ++ k) = (ts ++ lex k)%list.

Lemma stop_nls k : stop (nls ++ k) = true.
Proof. reflexivity. Qed.
Lemma lex_nls k : lex (nls ++ k) = lex k.
Proof. exact (lex_piece nls k eq_refl). Qed.

Lemma reads_lexes s ts : reads s ts -> lexes s ts.
Proof.
  induction 1 as [l ts Hl H | l ts s tss Hl H Hr IH]; [exact H|].
  intros k Hk. rewrite !sapp_assoc, H by apply stop_nls. rewrite lex_nls, IH by exact Hk.
  apply app_assoc.
Qed.
Lemma reads_lex s ts : reads s ts -> lex s = ts.
Proof. intro H; apply lexes_lex, reads_lexes, H. Qed.
Lemma reads_nil ts : reads "" ts -> ts = [].
Proof. intro H. apply reads_lex in H. rewrite <- H. reflexivity. Qed.
Lemma reads_empty : reads "" [].
Proof. apply rd_last; [reflexivity | intros k _; reflexivity]. Qed.
Lemma reads_eq s ts ts' : reads s ts -> ts = ts' -> reads s ts'.
Proof. intros H <-; exact H. Qed.

Lemma line_app a b : line a -> line b -> line (a ++ b).
Proof. unfold line; intros Ha Hb. rewrite str_exists_app, Ha, Hb. reflexivity. Qed.
Lemma line_app_inv a b : line (a ++ b) -> line a /\ line b.
Proof. unfold line; rewrite str_exists_app. now intros [? ?]%orb_false_iff. Qed.
Lemma stop_app a k : stop a = true -> stop k = true -> stop (a ++ k) = true.
Proof. destruct a; auto. Qed.
Lemma stop_app_l a b : stop (a ++ b) = true -> stop a = true.
Proof. destruct a; auto. Qed.

Lemma lexes_app_stop a b ta tb :
  lexes a ta -> stop b = true -> lexes b tb -> lexes (a ++ b) (ta ++ tb)%list.
Proof. intros Ha Hs Hb. apply lexes_app; auto. intros k Hk; now apply stop_app. Qed.

Lemma reads_app a b ta tb :
  reads a ta -> stop b = true -> reads b tb -> reads (a ++ b) (ta ++ tb)%list.
Proof.
  intros Ha Hs Hb. revert Hb. induction Ha as [l ts Hl H | l ts s tss Hl H Hr IH]; intro Hb.
  - destruct Hb as [l2 ts2 Hl2 H2 | l2 ts2 s tss Hl2 H2 Hr].
    + apply rd_last; [now apply line_app | now apply lexes_app_stop].
    + rewrite <- sapp_assoc, app_assoc. apply rd_cons; [now apply line_app | | exact Hr].
      apply lexes_app_stop; auto. eapply stop_app_l, Hs.
  - rewrite !sapp_assoc, <- app_assoc. apply rd_cons; auto.
Qed.

Lemma closed_app a b ta tb : closed a ta -> reads b tb -> reads (a ++ b) (ta ++ tb)%list.
Proof.
  intros [Hl Ha] Hb. destruct Hb as [l2 ts2 Hl2 H2 | l2 ts2 s tss Hl2 H2 Hr].
  - apply rd_last; [now apply line_app|]. intros k Hk.
    rewrite sapp_assoc, Ha, H2 by exact Hk. apply app_assoc.
  - rewrite <- sapp_assoc, app_assoc. apply rd_cons; [now apply line_app | | exact Hr].
    intros k Hk. rewrite sapp_assoc, Ha, H2 by exact Hk. apply app_assoc.
Qed.
Lemma closed_closed a b ta tb : closed a ta -> closed b tb -> closed (a ++ b) (ta ++ tb)%list.
Proof.
  intros [Hl Ha] [Hlb Hb]. split; [now apply line_app|].
  intro k. rewrite sapp_assoc, Ha, Hb. apply app_assoc.
Qed.
(** A fixed text that does not end in the middle of a word. *)
Definition closed_text (p : string) : bool := (piece true p && negb (str_exists is_break p))%bool.
Lemma closed_lit p : closed_text p = true -> closed p (lex p).
Proof.
  intros [H1 H2]%andb_true_iff. apply negb_true_iff in H2. split; [exact H2|].
  intro k; now apply lex_piece.
Qed.
Definition word_text (p : string) : bool := (piece false p && negb (str_exists is_break p))%bool.
Lemma reads_lit p : word_text p = true -> reads p (lex p).
Proof.
  intros [H1 H2]%andb_true_iff. apply negb_true_iff in H2.
  apply rd_last; [exact H2 | now apply lexes_piece].
Qed.
Lemma closed_reads a ta : closed a ta -> reads a ta.
Proof. intro H. rewrite <- (app_nil_r ta), <- (sapp_nil_r a). eapply closed_app; [exact H | apply reads_empty]. Qed.

Lemma reads_nls s ts : reads s ts -> reads (nls ++ s) ts.
Proof.
  intro H. apply (rd_cons "" [] s ts); [reflexivity | | exact H]. intros k _; reflexivity.
Qed.
Lemma closed_spaces n : closed (spaces n) [].
Proof.
  induction n as [|n [Hl Hn]].
  - split; [reflexivity | intro k; reflexivity].
  - change (spaces (S n)) with (" " ++ spaces n).
    apply (closed_closed " " (spaces n) [] []); [|split; assumption].
    split; [reflexivity|]. intro k. exact (lex_piece " " k eq_refl).
Qed.

Lemma reads_pad s ts n : reads s ts -> reads (pad s n) ts.
Proof.
  induction 1 as [l ts Hl H | l ts s tss Hl H Hr IH].
  - rewrite pad_single by exact Hl. now apply rd_last.
  - assert (E : splitlines (l ++ nls ++ s) = l :: splitlines s).
    { unfold splitlines. rewrite splitlines_step; [reflexivity | exact Hl | | ].
      - right. exists nl; split; reflexivity.
      - intro X; discriminate X. }
    unfold pad in *. rewrite E. destruct (splitlines s) as [|x r] eqn:Es.
    + cbn [join] in *. apply reads_nil in IH. subst tss. rewrite app_nil_r.
      apply rd_last; assumption.
    + rewrite join_cons2. rewrite sapp_assoc. apply rd_cons; auto.
      apply (closed_app (spaces n) _ [] _); [apply closed_spaces | exact IH].
Qed.

Lemma reads_sep d ss ts :
  closed d (lex d) \/ d = nls -> (forall k, stop (d ++ k) = true) ->
  Forall2 reads ss ts -> reads (join d ss) (tjoin (lex d) ts).
Proof.
  intros Hd Hs H. induction H as [|s t ss ts Hst Hr IH]; [apply reads_empty|].
  destruct Hr as [|s' t' ss ts Hst' Hr]; [exact Hst|].
  rewrite join_cons2, tjoin_cons2. apply reads_app; [exact Hst | apply Hs |].
  destruct Hd as [Hd| ->]; [now apply closed_app | now apply reads_nls].
Qed.
Lemma combine_reads bs ss ts :
  length bs = length ss -> Forall2 reads ss ts ->
  Forall2 reads (map (fun bs : bool * string => if fst bs then nls ++ snd bs else snd bs)
                     (combine bs ss)) ts.
Proof.
  intros L H. revert bs L. induction H as [|s t ss ts Hst Hr IH]; intros bs L.
  - destruct bs; [constructor | discriminate].
  - destruct bs as [|b bs]; [discriminate|]. cbn [combine map fst snd]. constructor.
    + destruct b; [now apply reads_nls | exact Hst].
    + apply IH. now injection L.
Qed.
Lemma reads_join w o d ss ts :
  closed d (lex d) -> (forall k, stop (d ++ k) = true) ->
  Forall2 reads ss ts -> reads (join_core w o d ss) (tjoin (lex d) ts).
Proof.
  intros Hd Hs H. destruct (join_core_layout w o d ss) as (bs & L & _ & ->).
  unfold layout. apply reads_sep; [now left | exact Hs |]. now apply combine_reads.
Qed.
Lemma reads_stmts o ss ts :
  Forall2 reads ss ts -> reads (join_stmts ss o) (tjoin [TSym ","] ts).
Proof.
  intro H. unfold join_stmts, join_stmts_d.
  apply (reads_join 80 o "," ss ts); [|reflexivity|exact H]. now apply closed_lit.
Qed.
Lemma tjoin_nil ts : tjoin [] ts = concat ts.
Proof.
  induction ts as [|x [|y r] IH]; [reflexivity | cbn; now rewrite app_nil_r |].
  rewrite tjoin_cons2, IH. reflexivity.
Qed.
Lemma reads_stmts_blank o ss ts :
  Forall2 reads ss ts -> reads (join_stmts_d " " ss o) (concat ts).
Proof.
  intro H. unfold join_stmts_d. rewrite <- tjoin_nil.
  apply (reads_join 80 o " " ss ts); [|reflexivity|exact H]. now apply closed_lit.
Qed.

(** * Statements *)
Definition reads_entry (kv : string * string) (t : list token) : Prop :=
  exists tk tv, t = (tk ++ tv)%list /\ reads (fst kv) tk /\ reads (snd kv) tv.
Lemma reads_key_value k v tk tv :
  reads k tk -> reads v tv -> reads (match v with "" => k | _ => k ++ " " ++ v end) (tk ++ tv)%list.
Proof.
  intros Hk Hv. destruct v as [|c v].
  - apply reads_nil in Hv; subst tv. now rewrite app_nil_r.
  - apply reads_app; [exact Hk | reflexivity |].
    apply (closed_app " " _ [] tv); [|exact Hv]. apply (closed_lit " "); reflexivity.
Qed.
Lemma reads_stmt_line o river n k v tk tv :
  reads k tk -> reads v tv -> reads (stmt_line o river n (k, v)) (tk ++ tv)%list.
Proof.
  intros Hk Hv. unfold stmt_line. destruct (is_pretty o); [destruct river|].
  - assert (Hk' : reads (rjust n k) tk).
    { unfold rjust. apply (closed_app _ _ [] tk); [apply closed_spaces | exact Hk]. }
    assert (Hv' : reads (match v with "" => v | _ => pad v (n + 1) end) tv).
    { destruct v; [exact Hv | now apply reads_pad]. }
    now apply reads_key_value.
  - now apply reads_key_value.
  - now apply reads_key_value.
Qed.
Lemma reads_stmt o river m tss :
  Forall2 reads_entry m tss -> reads (stmt_to_string o river m) (concat tss).
Proof.
  intro H. unfold stmt_to_string. generalize (max_key m); intro n.
  assert (F : Forall2 reads (map (stmt_line o river n) m) tss).
  { induction H as [|[k v] t m tss (tk & tv & -> & Hk & Hv) Hr IH]; constructor; [|exact IH].
    now apply reads_stmt_line. }
  rewrite <- tjoin_nil. destruct (is_pretty o).
  - apply (reads_sep nls); [now right | reflexivity | exact F].
  - apply (reads_sep " "); [left; now apply closed_lit | reflexivity | exact F].
Qed.

(** * Atoms *)
Lemma word_not_break : forall c, is_word c = true -> is_break c = false.
Proof.
  assert (H : forall c, implb (is_word c) (negb (is_break c)) = true) by by_all_ascii.
  intros c Hc; specialize (H c); rewrite Hc in H; now apply negb_true_iff.
Qed.
Lemma forall_line f s : (forall c, f c = true -> is_break c = false) -> str_forall f s = true -> line s.
Proof.
  intros Hf. unfold line. induction s as [|c s IH]; cbn [str_forall str_exists]; [reflexivity|].
  intros [Hc Hs]%andb_true_iff. rewrite (Hf _ Hc), (IH Hs). reflexivity.
Qed.
Lemma wordy_line n : wordy n = true -> line n.
Proof.
  destruct n as [|c n]; [discriminate|]. cbn [wordy]. intros [_ H]%andb_true_iff.
  revert H; apply forall_line, word_not_break.
Qed.
Lemma letter_facts : forall c, (is_letter c || Ascii.eqb c "_")%bool = true ->
  Lexer.is_ws c = false /\ Ascii.eqb c squote = false /\ Ascii.eqb c dquote = false
  /\ Ascii.eqb c "`" = false /\ is_digit c = false.
Proof.
  assert (H : forall c, implb (is_letter c || Ascii.eqb c "_")
    (negb (Lexer.is_ws c) && negb (Ascii.eqb c squote) && negb (Ascii.eqb c dquote)
     && negb (Ascii.eqb c "`") && negb (is_digit c)) = true) by by_all_ascii.
  intros c Hc; specialize (H c); rewrite Hc in H; cbn [implb] in H.
  rewrite !andb_true_iff, !negb_true_iff in H; tauto.
Qed.
(** Lexing never joins a word with a stop character. *)
Lemma lexes_word n : wordy n = true -> lexes n [word_token n].
Proof.
  intros H k Hk. destruct n as [|c n]; [discriminate|]. cbn [wordy] in H.
  apply andb_true_iff in H; destruct H as [Hc Hw].
  cbn [append]. rewrite lex_cons. unfold next_token.
  destruct (letter_facts c Hc) as (E1 & E2 & E3 & E4 & E5). rewrite E1, E2, E3, E4, E5, Hc.
  assert (Es : span is_word (String c (n ++ k)) = (String c n, k)).
  { apply (span_spec is_word (String c n) k Hw).
    destruct k as [|d k]; [exact I|]. apply stop_char_not_word, Hk. }
  rewrite Es; clear Es.
  assert (Hs : match k with String d _ => stop_char d = true | "" => True end) by (destruct k; auto).
  set (w := String c n). cbn iota.
  destruct (String.eqb w "U").
  - destruct k as [|a [|b k]]; try reflexivity.
    destruct (stop_char_no_quote a Hs) as (Ea & _). now rewrite Ea.
  - destruct (String.eqb w "X"); [|reflexivity].
    destruct k as [|a k]; [reflexivity|].
    destruct (stop_char_no_quote a Hs) as (_ & Ea & _). now rewrite Ea.
Qed.
Lemma reads_word n : wordy n = true -> reads n [word_token n].
Proof. intro H. apply rd_last; [now apply wordy_line | now apply lexes_word]. Qed.

Lemma quote_line q s : is_break q = false -> str_exists is_break s = false ->
  line (String q (s ++ String q "")).
Proof.
  intros Hq Hs. unfold line. cbn [str_exists]. rewrite Hq, str_exists_app, Hs. cbn [str_exists].
  now rewrite Hq.
Qed.
Lemma reads_ident s : text_ok dquote s = true -> reads (quote_identifier s) [TQuoted (quote_identifier s)].
Proof.
  intros [H1 H2]%andb_true_iff. apply negb_true_iff in H2.
  apply rd_last; [now apply quote_line | now apply lexes_ident].
Qed.
Lemma reads_literal s : text_ok squote s = true -> reads (quote_literal s) [TString (quote_literal s)].
Proof.
  intros [H1 H2]%andb_true_iff. apply negb_true_iff in H2.
  apply rd_last; [now apply quote_line | now apply lexes_literal].
Qed.
(** Quoted names joined by dots. *)
Lemma lexes_chain l :
  forallb (paired dquote) l = true -> lexes (join "." (map quote_identifier l))
    (tjoin [TSym "."] (map (fun n => [TQuoted (quote_identifier n)]) l)).
Proof.
  induction l as [|x [|y r] IH]; intro H; [intros k _; reflexivity | |].
  - cbn in H. rewrite andb_true_r in H. now apply lexes_ident.
  - change (forallb (paired dquote) (x :: y :: r))
      with (paired dquote x && forallb (paired dquote) (y :: r))%bool in H.
    apply andb_true_iff in H; destruct H as [Hx Hr]. specialize (IH Hr).
    change (map quote_identifier (x :: y :: r))
      with (quote_identifier x :: map quote_identifier (y :: r)).
    cbn [map] in *. rewrite join_cons2, tjoin_cons2. intros k Hk.
    rewrite sapp_assoc, lex_quoted_ident by (auto; reflexivity).
    rewrite sapp_assoc.
    assert (E : forall s, lex ("." ++ String dquote s) = TSym "." :: lex (String dquote s)).
    { intro s. cbn [append]. rewrite lex_cons. reflexivity. }
    specialize (IH k Hk).
    set (J := join "." (quote_identifier y :: map quote_identifier r)) in *.
    assert (EJ : exists z, J ++ k = String dquote z).
    { unfold J. destruct r as [|z r]; [cbn; eauto|]. cbn [map]. rewrite join_cons2. cbn; eauto. }
    destruct EJ as [z EJ]. rewrite EJ in *. rewrite E, IH. reflexivity.
Qed.
Lemma line_chain l :
  forallb (text_ok dquote) l = true -> line (join "." (map quote_identifier l)).
Proof.
  induction l as [|x [|y r] IH]; intro H; [reflexivity | |].
  - cbn [forallb] in H. rewrite andb_true_r in H. apply andb_true_iff in H as [_ H].
    apply negb_true_iff in H. now apply quote_line.
  - cbn [forallb] in H. apply andb_true_iff in H as [Hx Hr]. specialize (IH Hr).
    cbn [map] in *. rewrite join_cons2. apply andb_true_iff in Hx as [_ Hx]. apply negb_true_iff in Hx.
    apply line_app; [now apply quote_line|]. apply line_app; [reflexivity | exact IH].
Qed.
Lemma reads_chain l :
  forallb (text_ok dquote) l = true ->
  reads (join "." (map quote_identifier l))
        (tjoin [TSym "."] (map (fun n => [TQuoted (quote_identifier n)]) l)).
Proof.
  intro H. apply rd_last; [now apply line_chain|]. apply lexes_chain.
  rewrite forallb_forall in *. intros x Hx. specialize (H x Hx). now apply andb_true_iff in H.
Qed.

(** * Numbers *)
Lemma digit_not_break : forall c, is_digit c = true -> is_break c = false.
Proof.
  assert (H : forall c, implb (is_digit c) (negb (is_break c)) = true) by by_all_ascii.
  intros c Hc; specialize (H c); rewrite Hc in H; now apply negb_true_iff.
Qed.
Lemma reads_N n : reads (str_of_N n) [TInt (str_of_N n)].
Proof.
  apply rd_last; [|apply lexes_N]. eapply forall_line; [apply digit_not_break | apply str_of_N_digits].
Qed.
(** A minus sign before something that does not make it a longer token. *)
Definition after_minus (s : string) : Prop :=
  match s with
  | String c _ => c <> "-"%char /\ c <> ">"%char /\ c <> "}"%char
  | "" => False
  end.
Lemma lex_minus s k : after_minus s -> lex ("-" ++ s ++ k) = TSym "-" :: lex (s ++ k).
Proof.
  destruct s as [|c s]; [intros []|]. intros (H1 & H2 & H3). cbn [append]. rewrite lex_cons.
  unfold next_token. cbn iota.
  change (Lexer.is_ws "-") with false. cbn iota.
  apply Ascii.eqb_neq in H1, H2, H3. cbn - [lex Ascii.eqb].
  change (Ascii.eqb "-" squote) with false. change (Ascii.eqb "-" dquote) with false.
  change (Ascii.eqb "-" "`") with false. change (Ascii.eqb "-" "_") with false.
  change (existsb (Ascii.eqb "-") one_char_syms) with false.
  change (Ascii.eqb "-" ".") with false. change (Ascii.eqb "-" "-") with true. cbn - [lex Ascii.eqb].
  rewrite H1, H2, H3. reflexivity.
Qed.
Lemma after_minus_app s k : after_minus s -> after_minus (s ++ k).
Proof. destruct s; [intros [] | auto]. Qed.
Lemma reads_minus s ts : after_minus s -> reads s ts -> reads ("-" ++ s) (TSym "-" :: ts).
Proof.
  intros Hm H. destruct H as [l ts Hl Hx | l ts s tss Hl Hx Hr].
  - apply rd_last; [apply (line_app "-" l eq_refl Hl)|]. intros k Hk.
    rewrite sapp_assoc, lex_minus, Hx by assumption. reflexivity.
  - rewrite <- (sapp_assoc "-" l). change (TSym "-" :: (ts ++ tss)%list) with ((TSym "-" :: ts) ++ tss)%list.
    destruct l as [|c l].
    + destruct Hm as (Hm & _). apply rd_cons; [reflexivity | | exact Hr].
      intros k Hk. cbn [append]. pose proof (Hx "" eq_refl) as E. cbn in E. 
      assert (ts = []) by (destruct ts; [reflexivity | discriminate]). subst ts.
      destruct k as [|d k]; [reflexivity|]. cbn [app].
      pose proof (lex_minus (String d k) "") as L. rewrite !sapp_nil_r in L. apply L.
      cbn in Hk; repeat split; intros ->; discriminate Hk.
    + apply rd_cons; [apply (line_app "-" (String c l) eq_refl Hl) | | exact Hr].
      intros k Hk. rewrite sapp_assoc, lex_minus, Hx by assumption. reflexivity.
Qed.

Lemma stop_char_no_exp : forall c, stop_char c = true -> Ascii.eqb c "E" = false.
Proof. intros c H; now apply stop_char_no_quote in H. Qed.
Lemma stop_exponent k : stop k = true -> scan_exponent k = None.
Proof. destruct k as [|c k]; cbn; [reflexivity|]. intro H. now rewrite (stop_char_no_exp c H). Qed.
Lemma digit_word : forall c, is_digit c = true -> is_word c = true.
Proof. unfold is_word; intros c ->; now rewrite orb_true_r. Qed.
Lemma str_forall_imp (f g : ascii -> bool) s :
  (forall c, f c = true -> g c = true) -> str_forall f s = true -> str_forall g s = true.
Proof.
  intro H. induction s as [|c s IH]; cbn; [auto|]. intros [Hc Hs]%andb_true_iff.
  rewrite (H c Hc), (IH Hs); reflexivity.
Qed.
Lemma digit_facts : forall c, is_digit c = true ->
  Lexer.is_ws c = false /\ Ascii.eqb c squote = false /\ Ascii.eqb c dquote = false
  /\ Ascii.eqb c "`" = false.
Proof.
  assert (H : forall c, implb (is_digit c)
    (negb (Lexer.is_ws c) && negb (Ascii.eqb c squote) && negb (Ascii.eqb c dquote)
     && negb (Ascii.eqb c "`")) = true) by by_all_ascii.
  intros c Hc; specialize (H c); rewrite Hc in H; cbn [implb] in H.
  rewrite !andb_true_iff, !negb_true_iff in H; tauto.
Qed.
Lemma stop_char_not_digit c : stop_char c = true -> is_digit c = false.
Proof. intro H; now apply stop_char_no_quote in H. Qed.

Lemma lex_decimal a b k :
  a <> "" -> str_forall is_digit a = true -> str_forall is_digit b = true -> stop k = true ->
  lex (a ++ "." ++ b ++ k) = TDec (a ++ "." ++ b) :: lex k.
Proof.
  intros Na Ha Hb Hk. destruct a as [|c a]; [congruence|]. cbn [append].
  assert (Hc : is_digit c = true) by (cbn in Ha; now apply andb_true_iff in Ha).
  destruct (digit_facts c Hc) as (E1 & E2 & E3 & E4).
  rewrite lex_cons. unfold next_token. rewrite E1, E2, E3, E4, Hc.
  set (s := String c (a ++ String "." (b ++ k))).
  assert (S1 : span is_digit s = (String c a, String "." (b ++ k))).
  { apply (span_spec is_digit (String c a) (String "." (b ++ k)) Ha). reflexivity. }
  assert (S2 : span is_word s = (String c a, String "." (b ++ k))).
  { apply (span_spec is_word (String c a) (String "." (b ++ k))); [|reflexivity].
    revert Ha; apply str_forall_imp, digit_word. }
  assert (S3 : span is_digit (b ++ k) = (b, k)).
  { apply span_spec; [exact Hb|]. destruct k as [|d k]; [exact I|]. now apply stop_char_not_digit. }
  unfold number_token. rewrite S1, S2.
  change (Ascii.eqb "." ".") with true. cbn iota. rewrite S3, (stop_exponent k Hk).
  assert (L : Nat.ltb (String.length (String "." (b ++ k))) (String.length k) = false).
  { apply Nat.ltb_ge. cbn. rewrite slen_app. lia. }
  rewrite L. reflexivity.
Qed.

Lemma take_drop n : forall s, take n s ++ drop n s = s.
Proof. induction n as [|n IH]; intros [|c s]; cbn; try reflexivity. now rewrite IH. Qed.
Lemma take_digits f n : forall s, str_forall f s = true -> str_forall f (take n s) = true.
Proof.
  induction n as [|n IH]; intros [|c s] H; cbn in *; try reflexivity.
  apply andb_true_iff in H as [-> H]. now rewrite IH.
Qed.
Lemma drop_digits f n : forall s, str_forall f s = true -> str_forall f (drop n s) = true.
Proof.
  induction n as [|n IH]; intros [|c s] H; cbn in *; try reflexivity; try exact H.
  apply andb_true_iff in H as [_ H]. now apply IH.
Qed.
Lemma drop_length n : forall s, String.length (drop n s) = String.length s - n.
Proof. induction n as [|n IH]; intros [|c s]; cbn; try reflexivity. apply IH. Qed.
Lemma zeros_digits n : str_forall is_digit (zeros n) = true.
Proof. induction n as [|n IH]; [reflexivity | exact IH]. Qed.
Lemma zeros_length n : String.length (zeros n) = n.
Proof. induction n as [|n IH]; [reflexivity | cbn; now rewrite <- IH at 2]. Qed.
Lemma has_char_app c a b : has_char c (a ++ b) = (has_char c a || has_char c b)%bool.
Proof. unfold has_char. apply str_exists_app. Qed.

(** The text of a decimal with a negative exponent and without an E. *)
Lemma dec_str_form d :
  dec_plain d = true ->
  exists a b, dec_str d = ((if dneg d then "-" else "") ++ a ++ "." ++ b)%string
    /\ a <> "" /\ str_forall is_digit a = true /\ str_forall is_digit b = true
    /\ N_of_str (a ++ b) = dcoef d /\ (zlen b = - dexp d)%Z.
Proof.
  unfold dec_plain. intros [He Hn]%andb_true_iff. apply Z.ltb_lt in He. apply negb_true_iff in Hn.
  unfold dec_str in *. set (int := str_of_N (dcoef d)) in *.
  assert (Hint : str_forall is_digit int = true) by apply str_of_N_digits.
  assert (Hlen : (0 < zlen int)%Z).
  { unfold zlen, int. destruct (str_of_N_cons (dcoef d)) as (c & r & -> & _). cbn [String.length]. lia. }
  assert (Hb : (dexp d <=? 0)%Z = true) by (apply Z.leb_le; lia). rewrite Hb in *. cbn [andb] in *.
  destruct (-6 <? dexp d + zlen int)%Z eqn:E6.
  - rewrite Z.sub_diag in *. change (Z.eqb 0 0) with true in *. cbn iota in *.
    destruct (dexp d + zlen int <=? 0)%Z eqn:E0.
    + apply Z.leb_le in E0. exists "0", (zeros (Z.to_nat (- (dexp d + zlen int))) ++ int).
      split; [rewrite !sapp_nil_r; reflexivity|]. split; [discriminate|]. split; [reflexivity|].
      split; [rewrite str_forall_app, zeros_digits; exact Hint|]. split.
      * assert (Z0 : forall n s, N_of_str (zeros n ++ s) = N_of_str s).
        { induction n as [|n IH]; intro s; [reflexivity|]. cbn. exact (IH s). }
        change ("0" ++ zeros (Z.to_nat (- (dexp d + zlen int))) ++ int)
          with (zeros (S (Z.to_nat (- (dexp d + zlen int)))) ++ int).
        rewrite Z0. apply N_of_str_of_N.
      * unfold zlen in *. rewrite slen_app, zeros_length. lia.
    + apply Z.leb_gt in E0.
      assert (E1 : (zlen int <=? dexp d + zlen int)%Z = false) by (apply Z.leb_gt; lia).
      rewrite E1 in *.
      exists (take (Z.to_nat (dexp d + zlen int)) int), (drop (Z.to_nat (dexp d + zlen int)) int).
      split; [rewrite !sapp_nil_r; reflexivity|]. split.
      { destruct (Z.to_nat (dexp d + zlen int)) as [|n] eqn:En; [lia|].
        destruct int; [unfold zlen in Hlen; cbn in Hlen; lia | discriminate]. }
      split; [now apply take_digits|]. split; [now apply drop_digits|]. split.
      * rewrite take_drop. apply N_of_str_of_N.
      * unfold zlen in *. rewrite drop_length. lia.
  - exfalso. apply Z.ltb_ge in E6.
    rewrite !has_char_app in Hn. apply orb_false_iff in Hn as [_ Hn]. apply orb_false_iff in Hn as [_ Hn].
    destruct (Z.eqb_spec (dexp d + zlen int - 1) 0); [lia|]. discriminate Hn.
Qed.
Lemma dec_str_abs d a : dec_str d = ((if dneg d then "-" else "") ++ a)%string ->
  dec_str (mkDec false (dcoef d) (dexp d)) = a.
Proof.
  unfold dec_str. cbn [dneg dcoef dexp]. destruct (dneg d); cbn [append]; intro H; [|exact H].
  now injection H.
Qed.
Lemma reads_decimal a b :
  a <> "" -> str_forall is_digit a = true -> str_forall is_digit b = true ->
  reads (a ++ "." ++ b) [TDec (a ++ "." ++ b)].
Proof.
  intros Na Ha Hb. apply rd_last.
  - apply line_app; [|apply line_app]; try reflexivity;
      (eapply forall_line; [apply digit_not_break | eassumption]).
  - intros k Hk. rewrite !sapp_assoc. now apply lex_decimal.
Qed.
Lemma digits_after_minus a b : a <> "" -> str_forall is_digit a = true -> after_minus (a ++ b).
Proof.
  intros Na Ha. apply after_minus_app. destruct a as [|c a]; [congruence|].
  cbn in Ha. apply andb_true_iff in Ha as [Hc _].
  repeat split; intros ->; discriminate Hc.
Qed.
Lemma reads_dec d : dec_plain d = true -> reads (dec_str d) (dec_toks d).
Proof.
  intro H. destruct (dec_str_form d H) as (a & b & E & Na & Ha & Hb & _).
  pose proof (dec_str_abs d _ E) as E'. unfold dec_toks. rewrite E', E.
  destruct (dneg d); [|now apply reads_decimal].
  apply reads_minus; [now apply digits_after_minus | now apply reads_decimal].
Qed.
Lemma reads_int z : reads (str_of_Z z) (int_toks z).
Proof.
  unfold int_toks. destruct (Z.ltb_spec z 0) as [Hz|Hz].
  - assert (E : str_of_Z z = ("-" ++ str_of_Z (- z))%string).
    { rewrite (str_of_Z_nonneg (- z)) by lia. destruct z; try lia. reflexivity. }
    rewrite E. unfold Ztok. apply reads_minus.
    + rewrite str_of_Z_nonneg by lia.
      destruct (str_of_N_cons (Z.to_N (- z))) as (c & r & E2 & Hc). rewrite E2.
      repeat split; intros ->; discriminate Hc.
    + rewrite str_of_Z_nonneg by lia. apply reads_N.
  - unfold Ztok. rewrite str_of_Z_nonneg by lia. apply reads_N.
Qed.
