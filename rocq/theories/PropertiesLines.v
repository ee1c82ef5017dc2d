(** C75: lists are laid out in as few lines as possible. *)
From Coq Require Import String Ascii List Arith Bool Lia.
From Verif Require Import PyStr StrFacts Printer PrinterFacts LexFacts.
Import ListNotations.
Open Scope nat_scope.
Open Scope string_scope.
Open Scope list_scope.

Lemma layout_one d b bs x : layout d (b :: bs) [x] = if b then String nl x else x.
Proof. unfold layout. destruct bs; destruct b; reflexivity. Qed.
Lemma layout_more d b c bs x y l :
  layout d (b :: c :: bs) (x :: y :: l) = ((if b then String nl x else x) ++ d ++ layout d (c :: bs) (y :: l))%string.
Proof.
  unfold layout. cbn [combine map fst snd]. rewrite join_cons2. destruct b; reflexivity.
Qed.
Lemma nl_lines_app p q : nl_free p = true -> length (nl_lines (p ++ q)%string) = length (nl_lines q).
Proof.
  induction p as [|c p IH]; intro H; [reflexivity|]. apply nl_free_cons in H as [Hc Hp]. cbn [append nl_lines]. rewrite Hc, <- (IH Hp).
  destruct (nl_lines (p ++ q)%string) as [|u v] eqn:E; [|reflexivity].
  exfalso. clear - E. destruct (p ++ q)%string as [|c s]; cbn [nl_lines] in E; [discriminate|]. destruct (Ascii.eqb c nl); [discriminate|].
  destruct (nl_lines s); discriminate.
Qed.
(** The line that the text starts with is at least as long as a prefix without line break. *)
Lemma first_line p q : nl_free p = true -> exists u v, nl_lines (p ++ q)%string = u :: v /\ String.length p <= String.length u.
Proof.
  induction p as [|c p IH]; intro H.
  - cbn [append]. destruct (nl_lines q) as [|u v] eqn:E; [|exists u, v; split; [reflexivity|apply Nat.le_0_l]].
    exfalso. destruct q as [|c q]; cbn [nl_lines] in E; [discriminate|]. destruct (Ascii.eqb c nl); [discriminate|]. destruct (nl_lines q); discriminate.
  - apply nl_free_cons in H as [Hc Hp]. destruct (IH Hp) as (u & v & E & L). cbn [append nl_lines]. rewrite Hc, E.
    exists (String c u), v. split; [reflexivity|]. cbn [String.length]. lia.
Qed.

(** Greedy is ahead: [po] is what the other layout has on the current line, [pg] what
    the loop has, of length [cg]. *)
Lemma ahead rem total d l : forall idx cg pg po bs,
  l <> [] -> idx + length l = total -> (idx = 0 -> cg = 0) -> nl_free pg = true -> nl_free po = true ->
  nl_free d = true -> String.length d = 1 -> length bs = length l -> (forall x, In x l -> nl_free x = true) ->
  (forall line, In line (nl_lines (po ++ layout d bs l)%string) -> String.length line <= rem) ->
  let g := length (nl_lines (pg ++ join d (join_loop true rem total idx cg l))%string) in
  let o := length (nl_lines (po ++ layout d bs l)%string) in
  g <= S o /\ (cg <= String.length po -> g <= o).
Proof.
  induction l as [|x l IH]; intros idx cg pg po bs N T Z Fg Fo Fd Ld Lb Fl W; [congruence|].
  pose proof (Fl x (or_introl eq_refl)) as Fx. destruct bs as [|b bs]; [discriminate Lb|].
  destruct l as [|y l].
  - clear IH. cbn [join_loop length] in *. replace (Nat.ltb idx (total - 1)) with false by (symmetry; apply Nat.ltb_ge; lia).
    rewrite layout_one in *. cbn [andb]. rewrite Nat.add_0_r.
    assert (X : String.length x + (if b then 0 else String.length po) <= rem).
    { destruct b.
      - rewrite nl_lines_break, nl_lines_free in W by assumption. pose proof (W x (or_intror (or_introl eq_refl))). lia.
      - rewrite nl_lines_free in W by (now rewrite nl_free_app, Fo). pose proof (W _ (or_introl eq_refl)) as H. rewrite slen_app in H. lia. }
    destruct (Nat.ltb_spec rem (cg + String.length x)) as [G|G].
    + destruct (Nat.eqb_spec idx 0) as [E|E]; [specialize (Z E); lia|]. cbn [join String.concat].
      change (nls ++ x)%string with (String nl x). rewrite (nl_lines_break pg x Fg), (nl_lines_free x Fx). destruct b.
      * rewrite nl_lines_break, nl_lines_free by assumption. cbn [length]. lia.
      * rewrite nl_lines_free by (now rewrite nl_free_app, Fo). cbn [length]. lia.
    + cbn [join String.concat]. rewrite nl_lines_app, (nl_lines_free x Fx) by assumption. destruct b.
      * rewrite nl_lines_break, nl_lines_free by assumption. cbn [length]. lia.
      * rewrite nl_lines_free by (now rewrite nl_free_app, Fo). cbn [length]. lia.
  - destruct bs as [|c bs]; [discriminate Lb|]. rewrite layout_more in *.
    assert (Fl' : forall z, In z (y :: l) -> nl_free z = true) by (intros; apply Fl; now right).
    assert (Fxd : nl_free (x ++ d)%string = true) by now rewrite nl_free_app, Fx, Fd.
    remember (y :: l) as m. assert (Nm : m <> []) by (subst m; discriminate).
    assert (Lb' : length (c :: bs) = length m) by (cbn [length] in *; lia). assert (T' : Datatypes.S idx + length m = total) by (cbn [length] in *; lia).
    cbn [join_loop]. replace (Nat.ltb idx (total - 1)) with true by (symmetry; apply Nat.ltb_lt; subst m; cbn [length] in *; lia). cbn [andb].
    (* the other layout *)
    set (po' := if b then (x ++ d)%string else (po ++ x ++ d)%string).
    assert (Fo' : nl_free po' = true) by (unfold po'; destruct b; [exact Fxd|now rewrite nl_free_app, Fo, Fxd]).
    set (rest := layout d (c :: bs) m) in *.
    assert (O : length (nl_lines (po ++ (if b then String nl x else x) ++ d ++ rest)%string) = (if b then 1 else 0) + length (nl_lines (po' ++ rest)%string)).
    { unfold po'. destruct b.
      - cbn [append]. rewrite nl_lines_break by exact Fo. cbn [length]. now rewrite <- sapp_assoc.
      - now rewrite !sapp_assoc. }
    assert (W' : forall line, In line (nl_lines (po' ++ rest)%string) -> String.length line <= rem).
    { intros line I. apply W. unfold po' in I. destruct b.
      - cbn [append]. rewrite nl_lines_break by exact Fo. right. now rewrite <- sapp_assoc.
      - rewrite !sapp_assoc in I. exact I. }
    assert (P : String.length x + 1 + (if b then 0 else String.length po) <= rem).
    { destruct (first_line po' rest Fo') as (u & v & E & L). pose proof (W' u) as H. rewrite E in H. specialize (H (or_introl eq_refl)).
      unfold po' in L. destruct b; rewrite !slen_app in L; lia. }
    assert (Lo : String.length po' = String.length x + 1 + (if b then 0 else String.length po)) by (unfold po'; destruct b; rewrite !slen_app; lia).
    rewrite O.
    destruct (Nat.ltb_spec rem (cg + (String.length x + 1))) as [G|G].
    + destruct (Nat.eqb_spec idx 0) as [E|E]; [specialize (Z E); lia|].
      destruct (IH (Datatypes.S idx) (String.length x + 1) (x ++ d)%string po' (c :: bs) Nm T' ltac:(discriminate) Fxd Fo' Fd Ld Lb' Fl' W') as [A B].
      fold rest in A, B. specialize (B ltac:(lia)).
      assert (J : length (nl_lines (pg ++ join d ((nls ++ x)%string :: join_loop true rem total (Datatypes.S idx) (String.length x + 1) m))%string)
                  = Datatypes.S (length (nl_lines ((x ++ d) ++ join d (join_loop true rem total (Datatypes.S idx) (String.length x + 1) m))%string))).
      { subst m. destruct (join_loop_nonempty true rem total (Datatypes.S idx) (String.length x + 1) y l) as (z & zs & Ez). rewrite Ez, join_cons2.
        change (nls ++ x)%string with (String nl x). cbn [append]. rewrite nl_lines_break by exact Fg. cbn [length]. now rewrite <- sapp_assoc. }
      rewrite J. destruct b; lia.
    + destruct (IH (Datatypes.S idx) (cg + (String.length x + 1)) (pg ++ x ++ d)%string po' (c :: bs) Nm T' ltac:(discriminate)
                  ltac:(now rewrite nl_free_app, Fg, Fxd) Fo' Fd Ld Lb' Fl' W') as [A B].
      fold rest in A, B.
      assert (J : length (nl_lines (pg ++ join d (x :: join_loop true rem total (Datatypes.S idx) (cg + (String.length x + 1)) m))%string)
                  = length (nl_lines ((pg ++ x ++ d) ++ join d (join_loop true rem total (Datatypes.S idx) (cg + (String.length x + 1)) m))%string)).
      { subst m. destruct (join_loop_nonempty true rem total (Datatypes.S idx) (cg + (String.length x + 1)) y l) as (z & zs & Ez). rewrite Ez, join_cons2.
        now rewrite !sapp_assoc. }
      rewrite J. destruct b; lia.
Qed.

(** * The property *)
(** The text has no more lines than any way of breaking the list in front of items whose
    lines are not longer than the width. *)
Theorem C75_fewest : forall w sp d l r bs,
  join_printer w (mkOpts PRETTY sp) d l = Ok r -> nl_free d = true -> String.length d = 1 -> (forall x, In x l -> nl_free x = true) ->
  length bs = length l -> (forall line, In line (nl_lines (layout d bs l)) -> String.length line <= w - sp) ->
  length (nl_lines r) <= length (nl_lines (layout d bs l)).
Proof.
  intros w sp d l r bs H Fd Ld Fl Lb W. unfold join_printer in H. destruct (py_assert _); [|discriminate H]. cbn [bind] in H. injection H as <-.
  unfold join_core. cbn [ospaces is_pretty omode]. destruct l as [|x l]; [destruct bs; [apply le_n|discriminate Lb]|].
  destruct (ahead (w - sp) (length (x :: l)) d (x :: l) 0 0 "" "" bs ltac:(discriminate) eq_refl ltac:(reflexivity) eq_refl eq_refl Fd Ld Lb Fl W) as [_ B].
  apply B. apply le_n.
Qed.
Print Assumptions C75_fewest.
(** It is one of them (with C10_pretty_breaks: the first item has no line feed in front),
    as soon as the items are not too long. *)
Theorem C75_among : forall w sp d l r,
  join_printer w (mkOpts PRETTY sp) d l = Ok r -> nl_free d = true -> String.length d = 1 ->
  (forall x, In x l -> nl_free x = true /\ String.length x < w - sp) ->
  exists bs, length bs = length l /\ r = layout d bs l /\ (forall line, In line (nl_lines r) -> String.length line <= w - sp).
Proof.
  intros w sp d l r H Fd Ld Fl. unfold join_printer in H. destruct (py_assert _); [|discriminate H]. cbn [bind] in H. injection H as <-.
  destruct (join_core_layout w (mkOpts PRETTY sp) d l) as (bs & L & _ & E). exists bs. split; [exact L|]. split; [exact E|].
  apply join_core_width; [exact Fd|lia|exact Fl].
Qed.
Print Assumptions C75_among.

(** * Cases *)
Example C75_case :
  let l := ["ab"; "cd"; "efgh"; "ij"; "k"] in
  join_printer 10 (mkOpts PRETTY 4) "," l = Ok ("ab,cd," ++ nls ++ "efgh," ++ nls ++ "ij,k")%string
  /\ Forall (fun line => String.length line <= 6) (nl_lines (layout "," [false; true; true; true; true] l))
  /\ length (nl_lines (layout "," [false; true; true; true; true] l)) = 5.
Proof. split; [vm_compute; reflexivity|]. split; [|reflexivity]. repeat (constructor; [vm_compute; lia|]). constructor. Qed.
(** The width is that of the list and not of the text: beside its keyword a list can be
    wider than the 80 characters of a line. *)
Local Definition long := String.concat "" (repeat "abcdefghij" 7).
Theorem C75_statement_refuted : exists l t,
  join_printer 80 (mkOpts PRETTY 4) "," l = Ok t
  /\ exists line, In line (nl_lines (stmt_to_string (mkOpts PRETTY 4) true [("SELECT", t)])) /\ 80 < String.length line.
Proof.
  exists [long; "abcde"]. eexists. split; [vm_compute; reflexivity|]. eexists. split; [vm_compute; left; reflexivity|]. vm_compute. lia.
Qed.
Print Assumptions C75_statement_refuted.
