(** Proofs about printer.py (C10, C11, C12). *)
From Coq Require Import String Ascii List ZArith NArith Bool Arith Lia.
From Verif Require Import PyStr StrFacts Printer.
Import ListNotations.
Open Scope string_scope.

(** * Lines of a text *)

(** One line terminator of Python [str.splitlines] (below 256). *)
Definition terminator (t : string) : Prop :=
  t = String (ascii_of_N 13) nls \/ exists c, t = String c "" /\ is_break c = true.
(** [has_lines s ls]: [ls] are the lines of [s], none for the empty text, and no
    empty line after a final terminator. *)
Inductive has_lines : string -> list string -> Prop :=
| hl_nil : has_lines "" []
| hl_last l : l <> "" -> str_exists is_break l = false -> has_lines l [l]
| hl_cons l t s ls :
    str_exists is_break l = false -> terminator t -> has_lines s ls ->
    (t = String (ascii_of_N 13) "" -> forall s', s <> String nl s') ->
    has_lines (l ++ t ++ s) (l :: ls).

Lemma splitlines_step l t s : forall cur,
  str_exists is_break l = false -> terminator t ->
  (t = String (ascii_of_N 13) "" -> forall s', s <> String nl s') ->
  splitlines_aux cur (l ++ t ++ s) = (cur ++ l)%string :: splitlines_aux "" s.
Proof.
  induction l as [|c l IH]; intros cur Hl Ht Hr.
  - rewrite sapp_nil_r. cbn [append]. destruct Ht as [-> | (c & -> & Hc)].
    + reflexivity.
    + cbn [append splitlines_aux]. rewrite Hc. destruct s as [|d s].
      * reflexivity.
      * destruct (N.eqb (code c) 13 && N.eqb (code d) 10)%bool eqn:E; [|reflexivity].
        exfalso. apply andb_true_iff in E as [E1 E2]. apply N.eqb_eq in E1, E2.
        assert (c = ascii_of_N 13) by (rewrite <- E1; symmetry; apply ascii_N_embedding).
        assert (d = nl) by (unfold nl; rewrite <- E2; symmetry; apply ascii_N_embedding).
        subst. eapply Hr; reflexivity.
  - cbn [append splitlines_aux]. cbn [str_exists] in Hl. apply orb_false_iff in Hl as [Hc Hl].
    rewrite Hc. rewrite (IH _ Hl Ht Hr). f_equal. rewrite sapp_assoc. reflexivity.
Qed.
Lemma splitlines_end l : forall cur,
  str_exists is_break l = false ->
  splitlines_aux cur l = match (cur ++ l)%string with "" => [] | r => [r] end.
Proof.
  induction l as [|c l IH]; intros cur Hl.
  - rewrite sapp_nil_r. destruct cur; reflexivity.
  - cbn [splitlines_aux]. cbn [str_exists] in Hl. apply orb_false_iff in Hl as [Hc Hl].
    rewrite Hc, (IH _ Hl), sapp_assoc. reflexivity.
Qed.
Lemma has_lines_splitlines s ls : has_lines s ls -> splitlines s = ls.
Proof.
  induction 1 as [|l N B|l t s ls B T H IH R]; unfold splitlines in *.
  - reflexivity.
  - rewrite splitlines_end by exact B. cbn [append]. destruct l; congruence.
  - rewrite (splitlines_step _ _ _ _ B T R). cbn [append]. rewrite IH. reflexivity.
Qed.
Lemma has_lines_total s : exists ls, has_lines s ls.
Proof.
  assert (G : forall n s, String.length s <= n -> exists ls, has_lines s ls).
  { clear s. induction n as [|n IH]; intros s L.
    { destruct s; [exists []; constructor | cbn in L; lia]. }
    assert (S : (str_exists is_break s = false)
       \/ exists l c r, s = l ++ String c r /\ str_exists is_break l = false /\ is_break c = true).
    { clear. induction s as [|c s IH]; [left; reflexivity|]. cbn [str_exists].
      destruct (is_break c) eqn:E.
      - right. exists "", c, s. auto.
      - destruct IH as [->|(l & d & r & -> & H1 & H2)]; [left; reflexivity|].
        right. exists (String c l), d, r. cbn. rewrite E. auto. }
    destruct S as [S|(l & c & r & -> & Hl & Hc)].
    - destruct s as [|c s]; [exists []; constructor|]. exists [String c s]. constructor; congruence.
    - rewrite slen_app in L. cbn in L.
      destruct (ascii_dec c (ascii_of_N 13)) as [->|Nc].
      + destruct r as [|d r].
        * exists [l]. change (l ++ String (ascii_of_N 13) "") with (l ++ String (ascii_of_N 13) "" ++ "").
          apply hl_cons; [exact Hl | right; eexists; split; [reflexivity|exact Hc] | constructor | discriminate].
        * destruct (ascii_dec d nl) as [->|Nd].
          -- destruct (IH r) as [ls Hls]; [cbn in L; lia|]. exists (l :: ls).
             change (l ++ String (ascii_of_N 13) (String nl r)) with (l ++ String (ascii_of_N 13) nls ++ r).
             apply hl_cons; [exact Hl | left; reflexivity | exact Hls | discriminate].
          -- destruct (IH (String d r)) as [ls Hls]; [cbn in L |- *; lia|]. exists (l :: ls).
             change (l ++ String (ascii_of_N 13) (String d r)) with (l ++ String (ascii_of_N 13) "" ++ String d r).
             apply hl_cons; [exact Hl | right; eexists; split; [reflexivity|exact Hc] | exact Hls |].
             intros _ s' E. apply Nd. injection E. auto.
      + destruct (IH r) as [ls Hls]; [lia|]. exists (l :: ls).
        change (l ++ String c r) with (l ++ String c "" ++ r).
        apply hl_cons; [exact Hl | right; eexists; split; [reflexivity|exact Hc] | exact Hls |].
        intro E. exfalso. apply Nc. injection E. auto. }
  apply (G (String.length s)); lia.
Qed.

(** C12. *)
Lemma pad_lines s ls n : has_lines s ls -> pad s n = join (nls ++ spaces n) ls.
Proof. intro H; unfold pad; rewrite (has_lines_splitlines _ _ H); reflexivity. Qed.
Lemma pad_single s n : str_exists is_break s = false -> pad s n = s.
Proof.
  intro H. destruct s as [|c s]; [reflexivity|].
  rewrite (pad_lines _ [String c s]); [reflexivity | constructor; [discriminate | exact H]].
Qed.

(** * JoinPrinter *)

Definition layout (delim : string) (breaks : list bool) (l : list string) : string :=
  join delim (map (fun bs : bool * string => if fst bs then nls ++ snd bs else snd bs) (combine breaks l)).

Lemma join_loop_default r t l : forall i c, join_loop false r t i c l = l.
Proof. induction l as [|x l IH]; intros i c; cbn [join_loop andb]; [|rewrite IH]; reflexivity. Qed.
Lemma join_core_default w o d l : is_pretty o = false -> join_core w o d l = join d l.
Proof. intro H; unfold join_core; rewrite H, join_loop_default; reflexivity. Qed.

Lemma join_loop_layout p r t l : forall i c,
  exists bs, length bs = length l /\ (i = 0 -> forall b bs', bs = b :: bs' -> b = false)
    /\ join_loop p r t i c l
       = map (fun bs : bool * string => if fst bs then nls ++ snd bs else snd bs) (combine bs l).
Proof.
  induction l as [|x l IH]; intros i c; cbn [join_loop].
  - exists []. repeat split; congruence.
  - set (cm := if Nat.ltb i (t - 1) then 1 else 0). cbv zeta.
    destruct (p && Nat.ltb r (c + (String.length x + cm)))%bool.
    + destruct (IH (S i) (String.length x + cm)) as (bs & Hl & _ & ->).
      destruct (Nat.eqb_spec i 0) as [Ei|Ei].
      * exists (false :: bs). cbn [length combine map fst snd]. rewrite Hl. repeat split.
        intros _ b bs' X. injection X as <- <-. reflexivity.
      * exists (true :: bs). cbn [length combine map fst snd]. rewrite Hl. repeat split.
        intros Hi. contradiction.
    + destruct (IH (S i) (c + (String.length x + cm))) as (bs & Hl & _ & ->).
      exists (false :: bs). cbn [length combine map fst snd]. rewrite Hl. repeat split.
      intros _ b bs' X. injection X as <- <-. reflexivity.
Qed.
Lemma join_core_layout w o d l :
  exists bs, length bs = length l /\ (forall b bs', bs = b :: bs' -> b = false)
    /\ join_core w o d l = layout d bs l.
Proof.
  destruct (join_loop_layout (is_pretty o) (w - ospaces o) (length l) l 0 0) as (bs & H1 & H2 & H3).
  exists bs. split; [exact H1|]. split; [apply H2; reflexivity|]. unfold join_core, layout. rewrite H3. reflexivity.
Qed.

(** Output lines: the pieces between line feeds. *)
Fixpoint nl_lines (s : string) : list string :=
  match s with
  | "" => [""]
  | String c s' =>
      if Ascii.eqb c nl then "" :: nl_lines s'
      else match nl_lines s' with
           | l :: ls => String c l :: ls
           | [] => [String c ""]
           end
  end.
Definition nl_free (s : string) : bool := negb (has_char nl s).
Lemma nl_free_cons c s : nl_free (String c s) = true -> Ascii.eqb c nl = false /\ nl_free s = true.
Proof.
  unfold nl_free, has_char; cbn [str_exists]. rewrite Ascii.eqb_sym.
  destruct (Ascii.eqb c nl); cbn; [discriminate | auto].
Qed.
Lemma nl_free_app a b : nl_free (a ++ b) = (nl_free a && nl_free b)%bool.
Proof. unfold nl_free, has_char; rewrite str_exists_app, negb_orb; reflexivity. Qed.
Lemma nl_lines_free p : nl_free p = true -> nl_lines p = [p].
Proof.
  induction p as [|c p IH]; intro H; [reflexivity|]. apply nl_free_cons in H as [Hc Hp].
  cbn [nl_lines]. rewrite Hc, (IH Hp). reflexivity.
Qed.
Lemma nl_lines_break p r : nl_free p = true -> nl_lines (p ++ String nl r) = p :: nl_lines r.
Proof.
  induction p as [|c p IH]; intro H; cbn [append nl_lines]; [reflexivity|].
  apply nl_free_cons in H as [Hc Hp]. rewrite Hc, (IH Hp). reflexivity.
Qed.

Lemma join_loop_nonempty p r t i c x l : exists y ys, join_loop p r t i c (x :: l) = y :: ys.
Proof. cbn [join_loop]. destruct (_ && _)%bool; eauto. Qed.

Lemma width_ok rem total d l : forall idx cur p,
  l <> [] -> idx + length l = total -> String.length p <= cur -> cur <= rem ->
  (idx = 0 -> cur = 0) ->
  nl_free p = true -> nl_free d = true -> String.length d <= 1 ->
  (forall x, In x l -> nl_free x = true /\ String.length x < rem) ->
  forall line, In line (nl_lines (p ++ join d (join_loop true rem total idx cur l))) ->
    String.length line <= rem.
Proof.
  induction l as [|x l IH]; intros idx cur p Nl Ht Hp Hc H0 Fp Fd Ld Hs line Hin; [congruence|].
  destruct (Hs x (or_introl eq_refl)) as [Fx Lx].
  cbn [length] in Ht.
  destruct l as [|y l].
  - (* last item *)
    cbn [join_loop] in Hin. cbn [length] in Ht.
    replace (Nat.ltb idx (total - 1)) with false in Hin by (symmetry; apply Nat.ltb_ge; lia).
    cbn [andb] in Hin. rewrite Nat.add_0_r in Hin.
    destruct (Nat.ltb_spec rem (cur + String.length x)) as [G|G].
    + destruct (Nat.eqb_spec idx 0) as [E|E].
      { specialize (H0 E). lia. }
      cbn [join String.concat] in Hin.
      change (p ++ nls ++ x) with (p ++ String nl x) in Hin.
      rewrite nl_lines_break, (nl_lines_free x Fx) in Hin by exact Fp.
      destruct Hin as [<-|[<-|[]]]; lia.
    + cbn [join String.concat] in Hin. rewrite nl_lines_free in Hin by (rewrite nl_free_app, Fp; exact Fx).
      destruct Hin as [<-|[]]. rewrite slen_app. lia.
  - set (l' := y :: l) in *.
    assert (Hl' : l' <> []) by discriminate.
    assert (Hs' : forall x, In x l' -> nl_free x = true /\ String.length x < rem)
      by (intros; apply Hs; right; assumption).
    cbn [join_loop] in Hin. cbn [length] in Ht.
    replace (Nat.ltb idx (total - 1)) with true in Hin
      by (symmetry; apply Nat.ltb_lt; unfold l' in Ht; cbn [length] in Ht; lia).
    cbn [andb] in Hin.
    destruct (Nat.ltb_spec rem (cur + (String.length x + 1))) as [G|G].
    + destruct (Nat.eqb_spec idx 0) as [E|E].
      { specialize (H0 E). lia. }
      destruct (join_loop_nonempty true rem total (S idx) (String.length x + 1) y l) as (z & zs & Ez).
      fold l' in Ez.
      assert (Ej : join d ((nls ++ x) :: join_loop true rem total (S idx) (String.length x + 1) l')
                   = String nl ((x ++ d) ++ join d (join_loop true rem total (S idx) (String.length x + 1) l'))).
      { rewrite Ez, sapp_assoc. reflexivity. }
      rewrite Ej, nl_lines_break in Hin by exact Fp.
      destruct Hin as [<-|Hin]; [lia|].
      revert Hin. apply (IH (S idx)); try assumption; try lia.
      * rewrite slen_app; lia.
      * rewrite nl_free_app, Fx, Fd; reflexivity.
    + destruct (join_loop_nonempty true rem total (S idx) (cur + (String.length x + 1)) y l) as (z & zs & Ez).
      fold l' in Ez.
      assert (Ej : p ++ join d (x :: join_loop true rem total (S idx) (cur + (String.length x + 1)) l')
                   = (p ++ x ++ d) ++ join d (join_loop true rem total (S idx) (cur + (String.length x + 1)) l')).
      { rewrite Ez, !sapp_assoc. reflexivity. }
      rewrite Ej in Hin. revert Hin. apply (IH (S idx)); try assumption; try lia.
      * rewrite !slen_app; lia.
      * rewrite !nl_free_app, Fp, Fx, Fd; reflexivity.
Qed.
Lemma join_core_width w sp d l :
  nl_free d = true -> String.length d <= 1 ->
  (forall x, In x l -> nl_free x = true /\ String.length x < w - sp) ->
  forall line, In line (nl_lines (join_core w (mkOpts PRETTY sp) d l)) -> String.length line <= w - sp.
Proof.
  intros Fd Ld Hs line Hin. unfold join_core in Hin.
  destruct l as [|x l]; [cbn in Hin; destruct Hin as [<-|[]]; cbn; lia|].
  eapply (width_ok (w - sp) _ d (x :: l) 0 0 ""); try eassumption; try reflexivity; try lia; try discriminate.
Qed.

(** * StatementPrinter *)

(** White space of Python [str.split()] below 256. *)
Definition is_ws (c : ascii) : bool :=
  (is_break c || Ascii.eqb c " " || N.eqb (code c) 9 || N.eqb (code c) 31 || N.eqb (code c) 160)%bool.
(** Python [s.split()]. *)
Definition flush (cur : string) : list string := match cur with "" => [] | _ => [cur] end.
Fixpoint words_from (cur s : string) : list string :=
  match s with
  | "" => flush cur
  | String c s' => if is_ws c then (flush cur ++ words_from "" s')%list
                   else words_from (cur ++ String c "") s'
  end.
Definition words (s : string) : list string := words_from "" s.

Lemma words_from_app a c b : is_ws c = true -> forall cur,
  words_from cur (a ++ String c b) = (words_from cur a ++ words b)%list.
Proof.
  intros Hc. induction a as [|d a IH]; intro cur; cbn [append words_from].
  - rewrite Hc. reflexivity.
  - destruct (is_ws d); rewrite IH; [rewrite app_assoc|]; reflexivity.
Qed.
Lemma words_app a c b : is_ws c = true -> words (a ++ String c b) = (words a ++ words b)%list.
Proof. intro H; apply words_from_app, H. Qed.
Lemma words_ws w s : str_forall is_ws w = true -> words (w ++ s) = words s.
Proof.
  induction w as [|c w IH]; intro H; [reflexivity|]. cbn [str_forall] in H.
  apply andb_true_iff in H as [Hc Hw]. cbn [append]. unfold words. cbn [words_from]. rewrite Hc. cbn [flush app].
  apply IH, Hw.
Qed.
Lemma words_sep a w b : w <> "" -> str_forall is_ws w = true -> words (a ++ w ++ b) = (words a ++ words b)%list.
Proof.
  destruct w as [|c w]; [congruence|]. intros _ H. cbn [str_forall] in H. apply andb_true_iff in H as [Hc Hw].
  cbn [append]. rewrite words_app by exact Hc. rewrite words_ws by exact Hw. reflexivity.
Qed.
Lemma words_join w l : w <> "" -> str_forall is_ws w = true -> words (join w l) = flat_map words l.
Proof.
  intros Nw Hw. induction l as [|x l IH]; [reflexivity|]. destruct l as [|y l].
  - cbn [flat_map]. rewrite app_nil_r. reflexivity.
  - change (join w (x :: y :: l)) with (x ++ w ++ join w (y :: l)).
    rewrite words_sep by assumption. rewrite IH. reflexivity.
Qed.
Lemma break_ws c : is_break c = true -> is_ws c = true.
Proof. unfold is_ws; intros ->; reflexivity. Qed.
Lemma spaces_ws n : str_forall is_ws (spaces n) = true.
Proof. induction n as [|n IH]; cbn; [reflexivity | exact IH]. Qed.
Lemma terminator_ws t : terminator t -> t <> "" /\ str_forall is_ws t = true.
Proof.
  intros [->|(c & -> & H)]; (split; [discriminate|]); [reflexivity|].
  cbn. rewrite (break_ws _ H). reflexivity.
Qed.
Lemma words_lines s ls : has_lines s ls -> words s = flat_map words ls.
Proof.
  induction 1 as [|l N B|l t s ls B T H IH R]; cbn [flat_map].
  - reflexivity.
  - rewrite app_nil_r; reflexivity.
  - destruct (terminator_ws t T). rewrite words_sep, IH by assumption. reflexivity.
Qed.
Lemma words_pad s n : words (pad s n) = words s.
Proof.
  destruct (has_lines_total s) as [ls H]. rewrite (pad_lines s ls n H), (words_lines s ls H).
  apply words_join; [discriminate|]. cbn [append nls str_forall]. rewrite spaces_ws. reflexivity.
Qed.

Lemma stmt_line_default o river n k v :
  is_pretty o = false -> stmt_line o river n (k, v) = match v with "" => k | _ => k ++ " " ++ v end.
Proof. intro H; unfold stmt_line; rewrite H; reflexivity. Qed.
Lemma stmt_line_river o n k v :
  is_pretty o = true ->
  stmt_line o true n (k, v)
  = match v with "" => rjust n k | _ => match pad v (n + 1) with "" => rjust n k | p => rjust n k ++ " " ++ p end end.
Proof. intro H; unfold stmt_line; rewrite H. destruct v; [reflexivity|]. destruct (pad _ _); reflexivity. Qed.
Lemma words_stmt_line o river n k v :
  words (stmt_line o river n (k, v)) = (words k ++ words v)%list.
Proof.
  assert (D : words (match v with "" => k | _ => k ++ " " ++ v end) = (words k ++ words v)%list).
  { destruct v as [|c v]; [cbn; rewrite app_nil_r; reflexivity|].
    apply words_sep; [discriminate | reflexivity]. }
  destruct (is_pretty o) eqn:P; [|rewrite stmt_line_default by exact P; exact D].
  destruct river; [|unfold stmt_line; rewrite P; exact D].
  rewrite stmt_line_river by exact P.
  assert (J : forall x, words (rjust n k ++ x) = words (k ++ x)).
  { intro x. unfold rjust. rewrite sapp_assoc. apply words_ws, spaces_ws. }
  assert (J0 : words (rjust n k) = words k) by (rewrite <- (sapp_nil_r (rjust n k)), J, sapp_nil_r; reflexivity).
  destruct v as [|c v]; [rewrite J0; cbn; rewrite app_nil_r; reflexivity|].
  pose proof (words_pad (String c v) (n + 1)) as W.
  destruct (pad (String c v) (n + 1)) as [|d p].
  - rewrite <- W, J0. cbn. rewrite app_nil_r; reflexivity.
  - rewrite J, <- W. apply words_sep; [discriminate | reflexivity].
Qed.
Lemma words_stmt o river m :
  words (stmt_to_string o river m) = flat_map (fun kv => words (fst kv) ++ words (snd kv))%list m.
Proof.
  unfold stmt_to_string. rewrite words_join.
  - induction m as [|[k v] m IH]; [reflexivity|]. rewrite flat_map_concat_map.
    assert (G : forall n m, concat (map words (map (stmt_line o river n) m))
             = flat_map (fun kv => words (fst kv) ++ words (snd kv))%list m).
    { clear. intros n m. induction m as [|[k v] m IH]; [reflexivity|].
      cbn [map concat flat_map fst snd]. rewrite words_stmt_line, IH. reflexivity. }
    apply G.
  - destruct (is_pretty o); discriminate.
  - destruct (is_pretty o); reflexivity.
Qed.

Lemma stmt_default o river m :
  is_pretty o = false ->
  stmt_to_string o river m
  = join " " (map (fun kv => match snd kv with "" => fst kv | v => fst kv ++ " " ++ v end) m).
Proof.
  intro H. unfold stmt_to_string. rewrite H. f_equal. apply map_ext. intros [k v].
  rewrite stmt_line_default by exact H. destruct v; reflexivity.
Qed.
Lemma spaces_length n : String.length (spaces n) = n.
Proof. induction n as [|n IH]; cbn; [reflexivity | f_equal; exact IH]. Qed.
Lemma max_key_le m k v : In (k, v) m -> String.length k <= max_key m.
Proof.
  induction m as [|[k' v'] m IH]; [intros []|]. cbn [max_key fold_right fst]. fold (max_key m).
  intros [E|H]; [injection E as <- <-|apply IH in H]; lia.
Qed.
(** River: every line starts with its key, right aligned so that all keys end in
    the same column. *)
Lemma stmt_river o m :
  is_pretty o = true ->
  exists blocks,
    stmt_to_string o true m = join nls blocks /\
    Forall2 (fun kv b => exists n rest,
               b = spaces n ++ fst kv ++ rest
               /\ n + String.length (fst kv) = max_key m
               /\ rest = match pad (snd kv) (max_key m + 1) with "" => "" | p => " " ++ p end) m blocks.
Proof.
  intro P. unfold stmt_to_string. rewrite P.
  exists (map (stmt_line o true (max_key m)) m). split; [reflexivity|].
  assert (G : forall l, (forall k v, In (k, v) l -> String.length k <= max_key m) ->
     Forall2 (fun kv b => exists n rest,
               b = spaces n ++ fst kv ++ rest
               /\ n + String.length (fst kv) = max_key m
               /\ rest = match pad (snd kv) (max_key m + 1) with "" => "" | p => " " ++ p end) l
       (map (stmt_line o true (max_key m)) l)).
  { induction l as [|[k v] l IH]; intro H; cbn [map]; constructor.
    - cbn [fst snd]. rewrite stmt_line_river by exact P.
      assert (L : String.length k <= max_key m) by (eapply H; left; reflexivity).
      exists (max_key m - String.length k). unfold rjust.
      destruct v as [|c v].
      + exists "". rewrite sapp_nil_r. split; [reflexivity|]. split; [lia | reflexivity].
      + destruct (pad (String c v) (max_key m + 1)) as [|d p].
        * exists "". rewrite sapp_nil_r. split; [reflexivity|]. split; [lia | reflexivity].
        * exists (" " ++ String d p). rewrite sapp_assoc. split; [reflexivity|]. split; [lia | reflexivity].
    - apply IH. intros k' v' Hin. apply (H k' v'). right; exact Hin. }
  apply G. intros k v; apply max_key_le.
Qed.

(** Building the mapping. *)
Lemma assoc_snoc {A} k (m : list (string * A)) k' v :
  assoc k (m ++ [(k', v)]) = match assoc k m with Some x => Some x | None => if String.eqb k k' then Some v else None end.
Proof.
  induction m as [|[k0 v0] m IH]; cbn; [reflexivity|]. destruct (String.eqb k k0); [reflexivity | exact IH].
Qed.
Lemma assoc_keys {A} k (m : list (string * A)) : (exists v, assoc k m = Some v) <-> In k (map fst m).
Proof.
  induction m as [|[k0 v0] m IH]; cbn.
  - split; [intros [v H]; discriminate | tauto].
  - destruct (String.eqb_spec k k0) as [->|N].
    + split; [auto | eauto].
    + rewrite IH. split; [auto | intros [E|H]; [congruence | exact H]].
Qed.
Lemma add_entries_ok new : forall m,
  match add_entries new m with
  | Ok r => r = (m ++ new)%list /\ (NoDup (map fst m) -> NoDup (map fst r))
  | Err e => e = AssertionError /\ ~ NoDup (map fst (m ++ new))
  end.
Proof.
  induction new as [|[k v] new IH]; intro m; cbn [add_entries].
  - rewrite app_nil_r. auto.
  - unfold add_entry. destruct (assoc k m) as [x|] eqn:E.
    + cbn [bind]. split; [reflexivity|]. intro N.
      assert (I : In k (map fst m)) by (apply assoc_keys; eauto).
      rewrite map_app in N. cbn [map fst] in N. apply NoDup_remove_2 in N. apply N, in_or_app. left; exact I.
    + cbn [bind]. specialize (IH (m ++ [(k, v)])%list).
      destruct (add_entries new (m ++ [(k, v)])%list) as [r|e].
      * destruct IH as [-> Hn]. rewrite <- app_assoc. split; [reflexivity|]. intro N. 
        rewrite <- app_assoc in Hn. apply Hn. rewrite map_app. cbn [map fst].
        assert (I : ~ In k (map fst m)) by (intro I; apply assoc_keys in I as [x X]; congruence).
        clear -I N. induction (map fst m) as [|a l IH]; cbn.
        -- constructor; [tauto | constructor].
        -- inversion N; subst. constructor.
           ++ rewrite in_app_iff. cbn. intros [H|[->|[]]]; [contradiction | apply I; left; reflexivity].
           ++ apply IH; [assumption | intro; apply I; right; assumption].
      * rewrite <- app_assoc in IH. exact IH.
Qed.
