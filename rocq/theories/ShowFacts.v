(** The texts of numbers, decimals and types determine them. *)
From Coq Require Import String Ascii List ZArith NArith Bool Lia.
From Verif Require Import PyStr StrFacts Types TypeFacts Inference InferenceFacts.
Import ListNotations.
Open Scope nat_scope.
Open Scope string_scope.

(** * Words *)
Definition is_stop (c : ascii) : bool :=
  (Ascii.eqb c "(" || Ascii.eqb c "," || Ascii.eqb c ")" || Ascii.eqb c " ")%bool.
Definition stops (s : string) : Prop := match s with "" => True | String c _ => is_stop c = true end.
Definition word (s : string) : Prop := str_forall (fun c => negb (is_stop c)) s = true.
Lemma word_split w : forall w' r r', word w -> word w' -> stops r -> stops r' -> w ++ r = w' ++ r' -> w = w' /\ r = r'.
Proof.
  unfold word. induction w as [|c w IH]; intros [|c' w'] r r' W W' S S' E; cbn [str_forall append] in *.
  - auto.
  - subst r. cbn [stops] in S. rewrite S in W'. discriminate.
  - subst r'. cbn [stops] in S'. rewrite S' in W. discriminate.
  - injection E as -> E. apply andb_true_iff in W as [_ W], W' as [_ W']. destruct (IH w' r r' W W' S S' E) as [-> ->]. auto.
Qed.
Lemma digit_word : forall c, is_digit c = true -> negb (is_stop c) = true.
Proof.
  intros c. assert (H : forallb (fun c => implb (is_digit c) (negb (is_stop c))) all_ascii = true) by (vm_compute; reflexivity).
  rewrite forallb_forall in H. specialize (H c (all_ascii_complete c)). intros D. now rewrite D in H.
Qed.
Lemma word_N n : word (str_of_N n).
Proof. apply (str_forall_impl is_digit); [apply digit_word|apply str_of_N_digits]. Qed.
Lemma word_Z z : word (str_of_Z z).
Proof. destruct z as [|p|p]; cbn [str_of_Z]; try apply word_N; unfold word; cbn [str_forall]; apply word_N. Qed.
Lemma str_of_Z_inj a b : str_of_Z a = str_of_Z b -> a = b.
Proof.
  assert (H : forall n p, str_of_N n = String "-" p -> False).
  { intros n p E. pose proof (str_of_N_digits n) as D. rewrite E in D. discriminate D. }
  destruct a, b; cbn [str_of_Z]; intros E; try (exfalso; eapply H; eassumption);
    try (exfalso; eapply H; symmetry; eassumption);
    try (injection E as E); apply str_of_N_inj in E; lia.
Qed.
Lemma Z_split a b r r' : stops r -> stops r' -> str_of_Z a ++ r = str_of_Z b ++ r' -> a = b /\ r = r'.
Proof.
  intros S S' E. destruct (word_split _ _ _ _ (word_Z a) (word_Z b) S S' E) as [H ->]. split; [now apply str_of_Z_inj|reflexivity].
Qed.

(** * Types *)
Definition type_tail (t : dtype) : string :=
  match t with
  | TSimple _ => ""
  | TDecimal p s => "(" ++ str_of_Z p ++ "," ++ str_of_Z s ++ ")"
  | TVarchar None => ""
  | TVarchar (Some n) => "(" ++ str_of_Z n ++ ")"
  | TChar n => "(" ++ str_of_Z n ++ ")"
  | TTime p z | TTimestamp p z => timelike_sql "" p z
  | TInterval k => " " ++ iv_from k ++ " TO " ++ iv_to k
  | TArray t => "(" ++ type_sql t ++ ")"
  | TMap k v => "(" ++ type_sql k ++ "," ++ type_sql v ++ ")"
  | TRow l => "(" ++ join "," (map type_sql l) ++ ")"
  | TQdigest t => "(" ++ type_sql t ++ ")"
  end.
Lemma type_sql_tail t : type_sql t = type_name t ++ type_tail t.
Proof. destruct t as [[]| |[]| | | | | | | |]; try reflexivity. Qed.
Definition ends (s : string) : Prop := match s with "" => True | String c _ => (c = "," \/ c = ")")%char end.
Lemma ends_stops s : ends s -> stops s.
Proof. destruct s; [auto|]. cbn [ends stops]. intros [-> | ->]; reflexivity. Qed.
Lemma tail_stops t r : ends r -> stops (type_tail t ++ r).
Proof.
  intro S. apply ends_stops in S.
  destruct t as [| |[]| |[] []|[] []|[]| | | |]; cbn [type_tail timelike_sql append stops]; try reflexivity; exact S.
Qed.
Lemma name_word t : word (type_name t).
Proof. destruct t as [[]| | | | | | | | | |]; reflexivity. Qed.

Lemma type_text_split : forall t u r r', ends r -> ends r' -> type_sql t ++ r = type_sql u ++ r' -> t = u /\ r = r'.
Proof.
  assert (P : forall x y : string, ends (")" ++ x)) by (intros; cbn; auto).
  assert (C : forall x y : string, ends ("," ++ x)) by (intros; cbn; auto).
  induction t as [s|p s|m|m|p z|p z|k|t IH|k v IHk IHv|l IH|t IH] using dtype_ind'; intros u r r' R R' E;
    rewrite (type_sql_tail u), type_sql_tail, !sapp_assoc in E;
    apply word_split in E as [N E]; auto using name_word, tail_stops;
    destruct u as [s'|p' s'|m'|m'|p' z'|p' z'|k'|t'|k' v'|l'|t'];
    cbn [type_name] in N; try discriminate N; try (destruct s; discriminate N); try (destruct s'; discriminate N);
    cbn [type_tail] in E; rewrite ?sapp_assoc in E; cbn [append] in E; repeat (rewrite ?sapp_assoc in E; cbn [append] in E).
  - split; [|exact E]. destruct s, s'; try discriminate N; reflexivity.
  - injection E as E. apply Z_split in E as [-> E]; [|reflexivity|reflexivity]. injection E as E.
    apply Z_split in E as [-> E]; [|reflexivity|reflexivity]. now injection E as ->.
  - destruct m as [m|], m' as [m'|]; cbn [append] in E; repeat (rewrite ?sapp_assoc in E; cbn [append] in E).
    + injection E as E. apply Z_split in E as [-> E]; [|reflexivity|reflexivity]. now injection E as ->.
    + subst r'. destruct R' as [H|H]; discriminate H.
    + subst r. destruct R as [H|H]; discriminate H.
    + auto.
  - injection E as E. apply Z_split in E as [-> E]; [|reflexivity|reflexivity]. now injection E as ->.
  - unfold timelike_sql in E. destruct p as [p|], p' as [p'|], z, z'; cbn [append] in E; repeat (rewrite ?sapp_assoc in E; cbn [append] in E);
      try (subst r; destruct R as [H|H]; discriminate H); try (subst r'; destruct R' as [H|H]; discriminate H);
      try discriminate E; try (injection E as E; apply Z_split in E as [-> E]; [|reflexivity|reflexivity]);
      try (injection E as E); try (subst r; destruct R as [H|H]; discriminate H); try (subst r'; destruct R' as [H|H]; discriminate H);
      subst; auto.
  - unfold timelike_sql in E. destruct p as [p|], p' as [p'|], z, z'; cbn [append] in E; repeat (rewrite ?sapp_assoc in E; cbn [append] in E);
      try (subst r; destruct R as [H|H]; discriminate H); try (subst r'; destruct R' as [H|H]; discriminate H);
      try discriminate E; try (injection E as E; apply Z_split in E as [-> E]; [|reflexivity|reflexivity]);
      try (injection E as E); try (subst r; destruct R as [H|H]; discriminate H); try (subst r'; destruct R' as [H|H]; discriminate H);
      subst; auto.
  - destruct k, k'; cbn [iv_from iv_to append] in E; try discriminate E; injection E as ->; auto.
  - injection E as E. change (String ")" r) with (")" ++ r) in E. change (String ")" r') with (")" ++ r') in E.
    apply IH in E as [-> E]; [|cbn; auto|cbn; auto]. now injection E as ->.
  - injection E as E. apply IHk in E as [-> E]; [|cbn; auto|cbn; auto]. injection E as E.
    apply IHv in E as [-> E]; [|cbn; auto|cbn; auto]. now injection E as ->.
  - injection E as E. assert (H : l = l' /\ r = r'); [|destruct H as [-> ->]; auto].
    clear N. unfold join in E. revert l' E.
    assert (NE : forall t x y, type_sql t ++ x = String ")" y -> False).
    { intros t x y F. destruct t as [[]| |[]| | | | | | | |]; discriminate F. }
    induction IH as [|x l Hx _ IHl]; intros [|x' l'] E.
    + cbn in E. now injection E as ->.
    + exfalso. destruct l'; cbn [map String.concat append] in E; rewrite ?sapp_assoc in E; symmetry in E; eapply NE; exact E.
    + exfalso. destruct l; cbn [map String.concat append] in E; rewrite ?sapp_assoc in E; eapply NE; exact E.
    + destruct l as [|y l], l' as [|y' l']; cbn [map String.concat] in E.
      * apply Hx in E as [-> E]; [|cbn; auto|cbn; auto]. now injection E as ->.
      * exfalso. rewrite !sapp_assoc in E. apply Hx in E as [_ E]; [|cbn; auto|cbn; auto]. discriminate E.
      * exfalso. rewrite !sapp_assoc in E. apply Hx in E as [_ E]; [|cbn; auto|cbn; auto]. discriminate E.
      * rewrite !sapp_assoc in E. apply Hx in E as [-> E]; [|cbn; auto|cbn; auto]. cbn [append] in E. injection E as E.
        apply (IHl (y' :: l')) in E as [E ->]. now injection E as -> ->.
  - injection E as E. apply IH in E as [-> E]; [|cbn; auto|cbn; auto]. now injection E as ->.
Qed.
Lemma type_sql_inj t u : type_sql t = type_sql u -> t = u.
Proof.
  intro E. apply (type_text_split t u "" ""); [exact Logic.I|exact Logic.I|]. now rewrite !sapp_nil_r.
Qed.

(** * Decimals *)
Fixpoint split_char (q : ascii) (s : string) : string * option string :=
  match s with
  | "" => ("", None)
  | String c s' => if Ascii.eqb c q then ("", Some s') else let '(a, b) := split_char q s' in (String c a, b)
  end.
Lemma split_char_none q s : has_char q s = false -> split_char q s = (s, None).
Proof.
  unfold has_char. induction s as [|c s IH]; [reflexivity|]. cbn [str_exists split_char]. intro H.
  apply orb_false_iff in H as [H1 H2]. rewrite Ascii.eqb_sym. rewrite H1, IH by assumption. reflexivity.
Qed.
Lemma split_char_app q a b : has_char q a = false -> split_char q (a ++ String q b) = (a, Some b).
Proof.
  unfold has_char. induction a as [|c a IH]; cbn [append str_exists split_char]; intro H.
  - now rewrite Ascii.eqb_refl.
  - apply orb_false_iff in H as [H1 H2]. rewrite Ascii.eqb_sym. rewrite H1, IH by assumption. reflexivity.
Qed.
(** Reading the text of a decimal. *)
Definition Z_read (s : string) : Z :=
  match s with
  | String "+" r => Z.of_N (N_of_str r)
  | String "-" r => - Z.of_N (N_of_str r)
  | _ => 0
  end.
Definition read_body (neg : bool) (s : string) : dec :=
  let '(b, e) := split_char "E" s in
  let '(i, f) := split_char "." b in
  let f' := match f with Some f => f | None => "" end in
  mkDec neg (N_of_str (i ++ f')) ((match e with Some e => Z_read e | None => 0 end) - zlen f')%Z.
Definition read_dec (s : string) : dec :=
  match s with
  | String "-" r => read_body true r
  | _ => read_body false s
  end.
Lemma read_sign (b : bool) s : str_forall is_digit (take 1 s) = true -> s <> "" ->
  read_dec ((if b then "-" else "") ++ s) = read_body b s.
Proof.
  intros D N. destruct b; cbn [append]; [reflexivity|]. destruct s as [|c s]; [congruence|].
  cbn [take str_forall] in D. rewrite andb_true_r in D.
  destruct (Ascii.eqb_spec c "-") as [->|H]; [discriminate D|].
  destruct c as [[] [] [] [] [] [] [] []]; try reflexivity; now elim H.
Qed.
Lemma read_expo e : (match (if Z.eqb e 0 then "" else "E" ++ (if (0 <=? e)%Z then "+" else "") ++ str_of_Z e) with
                     | "" => e = 0%Z | String c x => c = "E"%char /\ Z_read x = e end).
Proof.
  destruct (Z.eqb_spec e 0) as [->|N]; [reflexivity|]. cbn [append]. split; [reflexivity|].
  destruct e as [|p|p]; [congruence| |]; cbn [Z.leb Z.compare append Z_read str_of_Z].
  - unfold Z_read. rewrite N_of_str_of_N. reflexivity.
  - unfold Z_read. rewrite N_of_str_of_N. reflexivity.
Qed.
Lemma digits_no c s : is_digit c = false -> str_forall is_digit s = true -> has_char c s = false.
Proof. apply digits_no_char. Qed.
Lemma zeros_value n s : N_of_str ("0" ++ zeros n ++ s) = N_of_str s.
Proof.
  rewrite !N_of_str_app. assert (Z0 : N_of_str (zeros n) = 0%N).
  { induction n as [|n IH]; [reflexivity|]. change (zeros (S n)) with ("0" ++ zeros n). rewrite N_of_str_app, IH. 
    change (N_of_str "0") with 0%N. lia. }
  rewrite Z0. change (N_of_str "0") with 0%N. lia.
Qed.


Lemma body_plain b i x e : str_forall is_digit i = true ->
  match x with "" => e = 0%Z | String c y => c = "E"%char /\ Z_read y = e end ->
  read_body b (i ++ x) = mkDec b (N_of_str i) e.
Proof.
  intros D X. unfold read_body. destruct x as [|c y].
  - subst e. rewrite sapp_nil_r, split_char_none by (apply digits_no; [reflexivity|exact D]).
    rewrite split_char_none by (apply digits_no; [reflexivity|exact D]). rewrite sapp_nil_r. reflexivity.
  - destruct X as [-> <-]. rewrite split_char_app by (apply digits_no; [reflexivity|exact D]).
    rewrite split_char_none by (apply digits_no; [reflexivity|exact D]). rewrite sapp_nil_r. f_equal. unfold zlen. cbn. lia.
Qed.
Lemma body_dot b i f x e : str_forall is_digit i = true -> str_forall is_digit f = true ->
  match x with "" => e = 0%Z | String c y => c = "E"%char /\ Z_read y = e end ->
  read_body b (i ++ "." ++ f ++ x) = mkDec b (N_of_str (i ++ f)) (e - zlen f).
Proof.
  intros D F X. unfold read_body.
  assert (H : has_char "E" (i ++ "." ++ f) = false).
  { rewrite !has_char_app. rewrite (digits_no _ i), (digits_no _ f) by (reflexivity || assumption). reflexivity. }
  rewrite <- (sapp_assoc "." f x), <- sapp_assoc. destruct x as [|c y].
  - subst e. rewrite sapp_nil_r, split_char_none by exact H. cbn [append].
    rewrite split_char_app by (apply digits_no; [reflexivity|exact D]). reflexivity.
  - destruct X as [-> <-]. rewrite split_char_app by exact H. cbn [append].
    rewrite split_char_app by (apply digits_no; [reflexivity|exact D]). reflexivity.
Qed.
Lemma read_dec_str d : read_dec (dec_str d) = d.
Proof.
  destruct d as [b c e]. unfold dec_str. cbn [dneg dcoef dexp].
  pose proof (str_of_N_digits c) as D. destruct (str_of_N_cons c) as (c0 & s0 & EC & DC). pose proof (zlen_str_of_N c) as L.
  set (ld := (e + zlen (str_of_N c))%Z).
  set (dp := if ((e <=? 0) && (-6 <? ld))%Z then ld else 1%Z).
  pose proof (read_expo (ld - dp)) as X.
  set (expo := if Z.eqb (ld - dp) 0 then "" else "E" ++ (if (0 <=? ld - dp)%Z then "+" else "") ++ str_of_Z (ld - dp)) in *.
  assert (M : (dp <= zlen (str_of_N c))%Z).
  { unfold dp. destruct (Z.leb_spec e 0), (Z.ltb_spec (-6) ld); cbn [andb]; unfold ld in *; lia. }
  destruct (Z.leb_spec dp 0) as [A|A].
  - rewrite read_sign; [|reflexivity|discriminate].
    change ("0." ++ zeros (Z.to_nat (- dp)) ++ str_of_N c) with ("0" ++ "." ++ zeros (Z.to_nat (- dp)) ++ str_of_N c).
    rewrite !(sapp_assoc "0"), (sapp_assoc "."). rewrite (body_dot b "0" _ expo (ld - dp)%Z); [|reflexivity| |exact X].
    + rewrite zeros_value, N_of_str_of_N. f_equal. unfold zlen in *. rewrite slen_app, Nat2Z.inj_add.
      assert (Zl : forall n, String.length (zeros n) = n) by (induction n as [|n IHn]; [reflexivity|exact (f_equal S IHn)]). rewrite Zl. unfold ld. lia.
    + rewrite str_forall_app, zeros_digits. exact D.
  - destruct (Z.leb_spec (zlen (str_of_N c)) dp) as [B|B].
    + replace (Z.to_nat (dp - zlen (str_of_N c))) with 0%nat by lia. cbn [zeros repeat_char]. rewrite sapp_nil_r.
      rewrite read_sign; [|rewrite EC; cbn; now rewrite DC|rewrite EC; discriminate].
      rewrite (body_plain b _ expo (ld - dp)%Z D X), N_of_str_of_N. f_equal. unfold ld. lia.
    + destruct (Z.to_nat dp) as [|n] eqn:En; [lia|].
      rewrite read_sign; [|rewrite EC; cbn; now rewrite DC|rewrite EC; discriminate].
      rewrite !sapp_assoc. rewrite (body_dot b _ _ expo (ld - dp)%Z); [|now apply take_digits|now apply drop_digits|exact X].
      rewrite take_drop, N_of_str_of_N. f_equal. unfold zlen in *. rewrite drop_length. unfold ld. unfold zlen. lia.
Qed.
Lemma dec_str_inj a b : dec_str a = dec_str b -> a = b.
Proof. intro E. now rewrite <- (read_dec_str a), E, read_dec_str. Qed.
