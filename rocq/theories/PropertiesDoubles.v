(** C65: double literals, treeno/builder/convert.py 723-729 and treeno/expression.py 264-277. *)
From Coq Require Import String Ascii List Bool ZArith NArith Arith Lia.
From Verif Require Import PyStr StrFacts Printer Types Inference Floats Lexer LexFacts TextFacts TypeParser Functions Ast Sql
  Parser ReadTokens ReadShape FloatFacts FloatNear PropertiesLiterals Grammar ParseMore ReadVisit PropertiesReader.
Import ListNotations.
Open Scope nat_scope.
Open Scope string_scope.

(** * Tokens of the text of a float *)
Lemma lex_number c s : is_digit c = true ->
  lex (String c s) = let '(t, r) := number_token (String c s) in t :: lex r.
Proof.
  intro Hc.
  assert (G : forall c, implb (is_digit c)
       (negb (is_ws c) && negb (Ascii.eqb c squote) && negb (Ascii.eqb c dquote)
        && negb (Ascii.eqb c "`"))%bool = true) by by_all_ascii.
  specialize (G c); rewrite Hc in G; cbn [implb] in G.
  rewrite !andb_true_iff, !negb_true_iff in G. destruct G as (((G1 & G2) & G3) & G4).
  rewrite lex_cons; unfold next_token. rewrite G1, G2, G3, G4, Hc. destruct (number_token (String c s)); reflexivity.
Qed.
Lemma lex_number' i s : some_digits i -> lex (i ++ s) = let '(t, r) := number_token (i ++ s) in t :: lex r.
Proof.
  intros [N D]. destruct i as [|c i]; [congruence|]. cbn [append]. apply lex_number.
  unfold digits_only in D. cbn [str_forall] in D. now apply andb_true_iff in D.
Qed.
Lemma span_digits i c s : digits_only i -> is_digit c = false -> span is_digit (i ++ String c s) = (i, String c s).
Proof. intros D C. now apply span_spec. Qed.
Lemma word_digits i : digits_only i -> str_forall is_word i = true.
Proof. intro D. exact (str_forall_impl _ _ _ digit_is_word D). Qed.
Lemma number_fixed i f k : digits_only i -> digits_only f ->
  match k with "" => True | String c _ => is_digit c = false /\ Ascii.eqb c "E" = false end ->
  number_token (i ++ "." ++ f ++ k) = (TDec (i ++ "." ++ f), k).
Proof.
  intros Di Df K. unfold number_token. cbn [append]. rewrite span_digits by auto.
  change (Ascii.eqb "." ".") with true. cbn iota.
  rewrite (span_spec is_digit f k Df) by (destruct k; [exact Logic.I|apply K]).
  assert (X : scan_exponent k = None) by (destruct k; [reflexivity|]; unfold scan_exponent; now destruct K as [_ ->]).
  rewrite X. rewrite (span_spec is_word i (String "." (f ++ k)) (word_digits i Di)) by reflexivity.
  cbn [String.length]. rewrite slen_app.
  assert (Nat.ltb (S (String.length f + String.length k)) (String.length k) = false) as -> by (apply Nat.ltb_ge; lia).
  reflexivity.
Qed.
Lemma number_word i e s : digits_only i -> e = "+"%char \/ e = "-"%char ->
  number_token (i ++ "e" ++ String e s) = (TDigitId (i ++ "e"), String e s).
Proof.
  intros Di E. unfold number_token. cbn [append]. rewrite span_digits by auto.
  change (Ascii.eqb "e" ".") with false. cbn iota. cbn [scan_exponent]. change (Ascii.eqb "e" "E") with false. cbn iota.
  assert (W : str_forall is_word (i ++ "e") = true).
  { rewrite str_forall_app. rewrite (word_digits i Di). reflexivity. }
  change (i ++ String "e" (String e s)) with (i ++ ("e" ++ String e s)). rewrite <- sapp_assoc.
  rewrite (span_spec is_word (i ++ "e") (String e s) W) by (destruct E; subst; reflexivity).
  cbn [String.length]. assert (Nat.ltb (S (String.length s)) (S (S (String.length s))) = true) as -> by (apply Nat.ltb_lt; lia).
  reflexivity.
Qed.
Lemma lex_sign e x : e = "+" \/ e = "-" -> some_digits x -> lex (e ++ x) = [TSym e; TInt x].
Proof.
  intros E [N D]. destruct x as [|c x]; [congruence|]. pose proof D as D'. unfold digits_only in D'. cbn [str_forall] in D'.
  apply andb_true_iff in D' as [C _].
  assert (L : lex (String c x) = [TInt (String c x)]).
  { rewrite <- (sapp_nil_r (String c x)) at 1. rewrite lex_digits; auto. }
  assert (G : forall c, implb (is_digit c) (negb (Ascii.eqb c "-") && negb (Ascii.eqb c ">") && negb (Ascii.eqb c "}"))%bool = true)
    by by_all_ascii.
  specialize (G c). rewrite C in G. cbn [implb] in G. rewrite !andb_true_iff, !negb_true_iff in G. destruct G as ((G1 & G2) & G3).
  destruct E as [->| ->]; cbn [append]; rewrite lex_cons; unfold next_token.
  - change (is_ws "+") with false. cbn -[lex]. now rewrite L.
  - cbn -[lex]. rewrite G1, G2, G3. now rewrite L.
Qed.
Lemma lex_exponent e x : e = "+" \/ e = "-" -> some_digits x -> lex ("e" ++ e ++ x) = [TId "e"; TSym e; TInt x].
Proof.
  intros E X. rewrite <- (lex_sign e x E X). destruct E as [->| ->]; cbn [append]; rewrite lex_cons; reflexivity.
Qed.
Lemma lex_minus s : match s with "" => False | String c _ => is_digit c = true \/ c = "i"%char end ->
  lex ("-" ++ s) = TSym "-" :: lex s.
Proof.
  intro H. destruct s as [|c s]; [destruct H|]. cbn [append]. rewrite lex_cons. unfold next_token.
  assert (G : forall c, implb (is_digit c || Ascii.eqb c "i") (negb (Ascii.eqb c "-") && negb (Ascii.eqb c ">") && negb (Ascii.eqb c "}"))%bool = true)
    by by_all_ascii.
  specialize (G c). assert ((is_digit c || Ascii.eqb c "i")%bool = true) as E by (destruct H as [-> | ->]; [reflexivity|apply orb_true_r]).
  rewrite E in G. cbn [implb] in G. rewrite !andb_true_iff, !negb_true_iff in G. destruct G as ((G1 & G2) & G3).
  cbn -[lex]. now rewrite G1, G2, G3.
Qed.

(** * What is written *)

(** DOUBLE_VALUE (SqlBase.g4 1169-1172): the text denotes [c * 10^e]. *)
Inductive exponent : string -> Z -> Prop :=
| exp_plain x : some_digits x -> exponent x (Z.of_N (digits 0 x))
| exp_plus x : some_digits x -> exponent ("+" ++ x) (Z.of_N (digits 0 x))
| exp_minus x : some_digits x -> exponent ("-" ++ x) (- Z.of_N (digits 0 x)).
Inductive double_text : string -> Z -> Z -> Prop :=
| dbl_whole i x e : some_digits i -> exponent x e -> double_text (i ++ "E" ++ x) (Z.of_N (digits 0 i)) e
| dbl_point i f x e : some_digits i -> digits_only f -> exponent x e ->
    double_text (i ++ "." ++ f ++ "E" ++ x) (Z.of_N (digits 0 (i ++ f))) (e - zlen f)
| dbl_less f x e : some_digits f -> exponent x e ->
    double_text ("." ++ f ++ "E" ++ x) (Z.of_N (digits 0 f)) (e - zlen f).

Lemma scan_e x e : exponent x e -> scan_exponent (String "E" x) = Some (String "E" x, "").
Proof.
  assert (G : forall c s, some_digits (String c s) -> is_digit c = true /\ span is_digit (String c s) = (String c s, "")).
  { intros c s [_ D]. split; [unfold digits_only in D; cbn [str_forall] in D; now apply andb_true_iff in D|].
    rewrite <- (sapp_nil_r (String c s)) at 1. now apply span_spec. }
  intro X. destruct X as [x H|x H|x H]; (destruct x as [|c x]; [now destruct H|]); destruct (G c x H) as [C S];
    cbn [scan_exponent append]; change (Ascii.eqb "E" "E") with true; cbn iota.
  - assert (N : forall c, implb (is_digit c) (negb (Ascii.eqb c "+" || Ascii.eqb c "-"))%bool = true) by by_all_ascii.
    specialize (N c). rewrite C in N. cbn [implb] in N. apply negb_true_iff in N. rewrite N. now rewrite S.
  - change (Ascii.eqb "+" "+" || Ascii.eqb "+" "-")%bool with true. cbn iota. now rewrite S.
  - change (Ascii.eqb "-" "+" || Ascii.eqb "-" "-")%bool with true. cbn iota. now rewrite S.
Qed.
Lemma exponent_value x e : exponent x e -> exponent_val x = e.
Proof.
  intro X. destruct X as [x [N D]|x _|x _]; cbn [append exponent_val].
  - destruct x as [|c x]; [congruence|]. cbn [exponent_val].
    unfold digits_only in D. cbn [str_forall] in D. apply andb_true_iff in D as [C _].
    assert (G : forall c, implb (is_digit c) (negb (Ascii.eqb c "+") && negb (Ascii.eqb c "-"))%bool = true) by by_all_ascii.
    specialize (G c). rewrite C in G. cbn [implb] in G. apply andb_true_iff in G as [G1%negb_true_iff G2%negb_true_iff].
    rewrite G1, G2. now rewrite digits_val.
  - change (Ascii.eqb "+" "-") with false. change (Ascii.eqb "+" "+") with true. cbn iota. now rewrite digits_val.
  - change (Ascii.eqb "-" "-") with true. cbn iota. now rewrite digits_val.
Qed.
Lemma split_e_at m x : str_forall (fun c => negb (Ascii.eqb c "E")) m = true -> split_e (m ++ String "E" x) = (m, x).
Proof.
  induction m as [|c m IH]; intro H; [reflexivity|]. cbn [str_forall append split_e] in *.
  apply andb_true_iff in H as [C H]. apply negb_true_iff in C. now rewrite C, IH.
Qed.
Lemma digits_no_e m : digits_only m -> str_forall (fun c => negb (Ascii.eqb c "E")) m = true.
Proof.
  intro D. refine (str_forall_impl _ _ _ _ D). intros c H.
  assert (G : forall c, implb (is_digit c) (negb (Ascii.eqb c "E")) = true) by by_all_ascii.
  specialize (G c). now rewrite H in G.
Qed.
Lemma split_dot_none i : digits_only i -> split_dot i = (i, None).
Proof.
  induction i as [|c i IH]; intro D; [reflexivity|]. unfold digits_only in *. cbn [str_forall split_dot] in *.
  apply andb_true_iff in D as [C D].
  assert (G : forall c, implb (is_digit c) (negb (Ascii.eqb c ".")) = true) by by_all_ascii.
  specialize (G c). rewrite C in G. apply negb_true_iff in G. rewrite G, IH by exact D. reflexivity.
Qed.
Lemma number_double s d :
  (let (ds, r) := span is_digit s in
   match r with
   | String c r1 =>
       if Ascii.eqb c "." then
         let '(fs, r2) := span is_digit r1 in
         match scan_exponent r2 with Some (e, r3) => (TDbl (ds ++ "." ++ fs ++ e), r3) | None => (TDec (ds ++ "." ++ fs), r2) end
       else match scan_exponent r with Some (e, r3) => (TDbl (ds ++ e), r3) | None => (TInt ds, r) end
   | "" => (TInt ds, r)
   end) = (TDbl d, "") -> number_token s = (TDbl d, "").
Proof.
  intro H. unfold number_token. destruct (span is_digit s) as [ds r]. rewrite H. destruct (span is_word s) as [w wr].
  assert (Nat.ltb (String.length wr) (String.length "") = false) as -> by (apply Nat.ltb_ge; cbn; lia). reflexivity.
Qed.
Lemma double_value s c e : double_text s c e -> float_of_text s = to_float c e.
Proof.
  intro H. unfold float_of_text. destruct H as [i x e [_ I] X|i f x e [_ I] F X|f x e [_ F] X]; cbn [append].
  - rewrite split_e_at by now apply digits_no_e. unfold dec_of_text. rewrite split_dot_none by exact I.
    cbn [dcoef dexp]. now rewrite (exponent_value x e X), digits_val.
  - replace (i ++ String "." (f ++ String "E" x)) with ((i ++ String "." f) ++ String "E" x) by (rewrite sapp_assoc; reflexivity).
    rewrite split_e_at.
    + unfold dec_of_text. change (String "." f) with ("." ++ f). rewrite (ReadVisit.split_dot_digits i f I).
      cbn [dcoef dexp]. rewrite (exponent_value x e X), digits_val. f_equal. lia.
    + rewrite str_forall_app. cbn [str_forall]. rewrite !digits_no_e by assumption. reflexivity.
  - replace (String "." (f ++ String "E" x)) with (String "." f ++ String "E" x) by reflexivity. rewrite split_e_at.
    + unfold dec_of_text. cbn [split_dot append]. change (Ascii.eqb "." ".") with true. cbn iota.
      cbn [append dcoef dexp]. rewrite (exponent_value x e X), digits_val. f_equal. lia.
    + cbn [str_forall]. now rewrite digits_no_e.
Qed.
Lemma double_lex s c e : double_text s c e -> lex s = [TDbl s] /\ lex ("-" ++ s) = [TSym "-"; TDbl s].
Proof.
  assert (G : forall i k, some_digits i -> number_token (i ++ k) = (TDbl (i ++ k), "") ->
              lex (i ++ k) = [TDbl (i ++ k)] /\ lex ("-" ++ i ++ k) = [TSym "-"; TDbl (i ++ k)]).
  { intros i k I N. assert (L : lex (i ++ k) = [TDbl (i ++ k)]) by (rewrite lex_number' by exact I; now rewrite N).
    split; [exact L|]. rewrite lex_minus; [now rewrite L|]. destruct I as [I0 I]. destruct i as [|d i]; [congruence|].
    cbn [append]. left. unfold digits_only in I. cbn [str_forall] in I. now apply andb_true_iff in I. }
  intros [i x e' I X|i f x e' I F X|f x e' [F0 F] X].
  - apply G; [exact I|]. apply number_double. cbn [append]. rewrite span_digits by (apply I || reflexivity).
    change (Ascii.eqb "E" ".") with false. cbn iota. now rewrite (scan_e x e' X).
  - apply G; [exact I|]. apply number_double. cbn [append]. rewrite span_digits by (apply I || reflexivity).
    change (Ascii.eqb "." ".") with true. cbn iota. rewrite span_digits by (assumption || reflexivity).
    now rewrite (scan_e x e' X).
  - destruct f as [|d f]; [congruence|]. assert (Dd : is_digit d = true) by (unfold digits_only in F; cbn [str_forall] in F; now apply andb_true_iff in F).
    assert (L : lex ("." ++ String d f ++ "E" ++ x) = [TDbl ("." ++ String d f ++ "E" ++ x)]).
    { cbn [append]. rewrite lex_cons. unfold next_token. cbn -[lex span scan_exponent is_digit]. rewrite Dd.
      change (String d (f ++ String "E" x)) with (String d f ++ String "E" x).
      rewrite (span_digits (String d f) "E" x F) by reflexivity. rewrite (scan_e x e' X). reflexivity. }
    split; [exact L|]. cbn [append] in *. rewrite lex_cons. unfold next_token. cbn -[lex]. now rewrite L.
Qed.
Lemma double_tokens en s : expression_of_tokens en [TDbl s] = Ok (NLit (LFloat (float_text_of false s)) double).
Proof. reflexivity. Qed.
Lemma minus_tokens en s : expression_of_tokens en [TSym "-"; TDbl s] = Ok (NLit (LFloat (float_text_of true s)) double).
Proof. reflexivity. Qed.

(** * Reading *)

(** A number with an exponent is a literal of type DOUBLE; its value is the float nearest to the
    number that is written, infinity if it is too large. *)
Theorem C65_value : forall en s c e, double_text s c e -> exists x,
  rounded (decimal c e) x
  /\ expression_from_sql en s = Ok (NLit (LFloat (float_repr x)) double)
  /\ expression_from_sql en ("-" ++ s) = Ok (NLit (LFloat ("-" ++ float_repr x)) double).
Proof.
  intros en s c e H. exists (to_float c e). destruct (double_lex s c e H) as [L M]. unfold expression_from_sql.
  rewrite L, M, double_tokens, minus_tokens. unfold float_text_of. rewrite (double_value s c e H).
  repeat apply conj; try reflexivity. apply to_float_rounded. destruct H; lia.
Qed.
Print Assumptions C65_value.

(** * Reading back what is printed *)
Lemma minus_lex i k : some_digits i -> lex ("-" ++ i ++ k) = TSym "-" :: lex (i ++ k).
Proof.
  intros [N D]. apply lex_minus. destruct i as [|c i]; [congruence|]. cbn [append]. left.
  unfold digits_only in D. cbn [str_forall] in D. now apply andb_true_iff in D.
Qed.
Lemma fixed_lex i f : some_digits i -> some_digits f -> lex (i ++ "." ++ f) = [TDec (i ++ "." ++ f)].
Proof.
  intros I F. rewrite lex_number' by exact I. pose proof (number_fixed i f "" (proj2 I) (proj2 F) Logic.I) as N.
  rewrite sapp_nil_r in N. rewrite N. reflexivity.
Qed.
Lemma point_lex i g e x : some_digits i -> some_digits g -> e = "+" \/ e = "-" -> some_digits x ->
  lex (i ++ "." ++ g ++ "e" ++ e ++ x) = [TDec (i ++ "." ++ g); TId "e"; TSym e; TInt x].
Proof.
  intros I G E X. rewrite lex_number' by exact I.
  rewrite (number_fixed i g ("e" ++ e ++ x) (proj2 I) (proj2 G)) by (split; reflexivity).
  now rewrite lex_exponent.
Qed.
Lemma word_lex i e x : some_digits i -> e = "+" \/ e = "-" -> some_digits x ->
  lex (i ++ "e" ++ e ++ x) = [TDigitId (i ++ "e"); TSym e; TInt x].
Proof.
  intros I E X. rewrite lex_number' by exact I. rewrite <- (lex_sign e x E X).
  destruct E as [-> | ->]; cbn [append];
    [change (i ++ String "e" (String "+" x)) with (i ++ "e" ++ String "+" x)|change (i ++ String "e" (String "-" x)) with (i ++ "e" ++ String "-" x)];
    rewrite number_word by (apply I || auto); reflexivity.
Qed.
(** The forms with an exponent, which Python writes with a small "e", cannot be read; *)
Theorem C65_exponent_unreadable : forall en sign i f e x,
  sign = "" \/ sign = "-" -> some_digits i -> f = "" \/ (exists g, f = "." ++ g /\ some_digits g) ->
  e = "+" \/ e = "-" -> some_digits x ->
  expression_from_sql en (sign ++ i ++ f ++ "e" ++ e ++ x) = Err (if String.eqb f "" then NotImplementedError else SyntaxErr).
Proof.
  intros en sign i f e x S I F E X. unfold expression_from_sql.
  assert (L : lex (sign ++ i ++ f ++ "e" ++ e ++ x) = app (if String.eqb sign "" then [] else [TSym "-"]) (lex (i ++ f ++ "e" ++ e ++ x))).
  { destruct S as [-> | ->]; [reflexivity|]. now rewrite minus_lex. }
  rewrite L. destruct F as [-> |(g & -> & G)].
  - change ("" ++ "e" ++ e ++ x) with ("e" ++ e ++ x). rewrite (word_lex i e x I E X). destruct S as [-> | ->], E as [-> | ->]; reflexivity.
  - rewrite !sapp_assoc. rewrite (point_lex i g e x I G E X). destruct S as [-> | ->], E as [-> | ->]; reflexivity.
Qed.
Print Assumptions C65_exponent_unreadable.
Lemma decimal_tokens en s :
  expression_of_tokens en [TDec s] = let* t := infer_decimal (dec_of_text s) in mk (NLit (LDec (dec_of_text s)) t).
Proof. change (expression_of_tokens en [TDec s]) with (let* t := infer_decimal (dec_of_text s) in mk (NLit (LDec (dec_of_text s)) t)). reflexivity. Qed.
Lemma minus_decimal_tokens en s :
  expression_of_tokens en [TSym "-"; TDec s] = let* t := infer_decimal (dec_of_text s) in mk (NLit (LDec (dec_neg (dec_of_text s))) t).
Proof. reflexivity. Qed.
(** the others are read as decimals, and infinity as the name of a column. *)
Theorem C65_print_read : forall en o r t e, float_text r ->
  expression_from_sql en (sql (NLit (LFloat r) t) o) = Ok e ->
  (exists d t', e = NLit (LDec d) t') \/ e = column "inf" \/ e = NUn UNeg (column "inf").
Proof.
  intros en o r t e (sign & body & -> & S & B) H.
  assert (P : expression_from_sql en (sign ++ body) = Ok e) by exact H. clear H.
  destruct B as [-> |[(i & f & -> & I & F)|(i & f & e' & x & -> & I & F & E & X)]].
  - right. destruct S as [-> | ->]; [left|right].
    + change (expression_from_sql en ("" ++ "inf")) with (Ok (column "inf")) in P. now injection P.
    + change (expression_from_sql en ("-" ++ "inf")) with (Ok (NUn UNeg (column "inf"))) in P. now injection P.
  - left. unfold expression_from_sql in P. destruct S as [-> | ->].
    + change ("" ++ i ++ "." ++ f) with (i ++ "." ++ f) in P. rewrite fixed_lex in P by assumption. rewrite decimal_tokens in P.
      destruct (infer_decimal _) as [t'|]; [|discriminate]. cbn [bind] in P. unfold mk in P.
      destruct (check _); [|discriminate]. cbn [bind] in P. injection P as <-. eauto.
    + rewrite minus_lex, fixed_lex in P by assumption. rewrite minus_decimal_tokens in P.
      destruct (infer_decimal _) as [t'|]; [|discriminate]. cbn [bind] in P. unfold mk in P.
      destruct (check _); [|discriminate]. cbn [bind] in P. injection P as <-. eauto.
  - rewrite C65_exponent_unreadable in P by assumption. discriminate.
Qed.
Print Assumptions C65_print_read.
(** So no double that is read survives printing and reading: *)
Theorem C65_never_survives : forall en en' o s r t e,
  expression_from_sql en s = Ok (NLit (LFloat r) t) ->
  expression_from_sql en' (sql (NLit (LFloat r) t) o) = Ok e -> forall r' t', e <> NLit (LFloat r') t'.
Proof.
  intros en en' o s r t e H P r' t' ->.
  destruct (C58_float en _ [] r t (ex_intro _ s (or_introl H)) (reached_here _)) as [_ F].
  destruct (C65_print_read en' o r t _ F P) as [(d & t'' & X)|[X|X]]; discriminate.
Qed.
Print Assumptions C65_never_survives.

(** * Cases *)
Example C65_case_text :
  double_text "12.50E-3" 1250 (-5) /\ double_text "7E22" 7 22 /\ double_text ".5E+1" 5 0 /\ double_text "1E400" 1 400.
Proof.
  assert (D : forall s, str_forall is_digit s = true -> s <> "" -> some_digits s) by (intros s A B; now split).
  repeat apply conj.
  - exact (dbl_point "12" "50" "-3" (-3) (D "12" eq_refl ltac:(discriminate)) eq_refl (exp_minus "3" (D "3" eq_refl ltac:(discriminate)))).
  - exact (dbl_whole "7" "22" 22 (D "7" eq_refl ltac:(discriminate)) (exp_plain "22" (D "22" eq_refl ltac:(discriminate)))).
  - exact (dbl_less "5" "+1" 1 (D "5" eq_refl ltac:(discriminate)) (exp_plus "1" (D "1" eq_refl ltac:(discriminate)))).
  - exact (dbl_whole "1" "400" 400 (D "1" eq_refl ltac:(discriminate)) (exp_plain "400" (D "400" eq_refl ltac:(discriminate)))).
Qed.
(** Read, printed and read again: DECIMAL(4,4) for 1.25E-2; an error for 7E22; the column inf for
    1E400; and 1E23 is not exactly the number that is written. *)
Example C65_case_read :
  expression_from_sql bare_env "12.50E-3" = Ok (NLit (LFloat "0.0125") double)
  /\ (exists d t, expression_from_sql bare_env "0.0125" = Ok (NLit (LDec d) t))
  /\ expression_from_sql bare_env "7E22" = Ok (NLit (LFloat "7e+22") double)
  /\ expression_from_sql bare_env "7e+22" = Err NotImplementedError
  /\ expression_from_sql bare_env "1E400" = Ok (NLit (LFloat "inf") double)
  /\ expression_from_sql bare_env "inf" = Ok (column "inf")
  /\ to_float 1 23 = FFin 5960464477539062 24
  /\ expression_from_sql bare_env "-2.2250738585072014E-308" = Ok (NLit (LFloat "-2.2250738585072014e-308") double).
Proof. repeat apply conj; try (eexists; eexists); vm_compute; reflexivity. Qed.
