(** The text of an object consists of the tokens of Tokens.v, in both modes. *)
From Coq Require Import String Ascii List ZArith NArith Bool Lia Arith.
From Verif Require Import PyStr StrFacts Lexer LexFacts Printer PrinterFacts Types TypeFacts
  TypeRoundTrip Inference Functions FunctionFacts Ast Sql Tokens ReadsFacts.
Import ListNotations.
Open Scope nat_scope.
Open Scope string_scope.

Lemma closed_val p v : closed_text p = true -> lex p = v -> closed p v.
Proof. intros H <-; now apply closed_lit. Qed.
Lemma reads_val p v : word_text p = true -> lex p = v -> reads p v.
Proof. intros H <-; now apply reads_lit. Qed.

Create HintDb reads.
Lemma reads_spacing o s ts : reads s ts -> reads (spacing o ++ s) ts.
Proof.
  intro H. unfold spacing. destruct (is_pretty o); [now apply reads_nls|].
  change ts with ([] ++ ts)%list. eapply closed_app; [apply (closed_val " "); reflexivity | exact H].
Qed.
Lemma stop_spacing o s : stop (spacing o ++ s) = true.
Proof. unfold spacing; destruct (is_pretty o); reflexivity. Qed.
Global Hint Resolve stop_spacing : reads.

(** * Tactics *)
Ltac is_lit s := match s with String _ ?r => is_lit r | EmptyString => idtac end.
Ltac val := vm_compute; reflexivity.
Ltac clit a := let v := eval vm_compute in (lex a) in apply (closed_val a v); val.
Ltac rlit a := let v := eval vm_compute in (lex a) in apply (reads_val a v); val.
Ltac rlits := match goal with |- reads ?a _ => rlit a end.
Ltac clits := match goal with |- closed ?a _ => clit a end.
Ltac stops := solve [reflexivity | assumption | auto with reads].
(** Split the text into its pieces; the tokens of the pieces fill a variable. *)
Ltac rd :=
  lazymatch goal with
  | |- reads ((?a ++ ?b) ++ ?c) _ => rewrite (sapp_assoc a b c); rd
  | |- reads (EmptyString ++ ?b) _ => change (EmptyString ++ b) with b; rd
  | |- reads (spacing ?o ++ ?b) _ => apply reads_spacing; rd
  | |- reads (?a ++ ?b) _ =>
      first
        [ is_lit a;
          first [ eapply closed_app; [clit a | rd]
                | eapply reads_app; [rlit a | stops | rd]
                | lazymatch b with
                  | ?b1 ++ ?c => is_lit b1; let ab := eval compute in (a ++ b1) in
                                 change (a ++ b1 ++ c) with (ab ++ c); rd
                  end ]
        | eapply reads_app; [solve [eauto 4 with reads] | stops | rd] ]
  | |- reads EmptyString _ => apply reads_empty
  | |- reads ?a _ =>
      first [ is_lit a; rlit a | solve [eauto 4 with reads] ]
  end.
Ltac lists := repeat (rewrite <- ?app_assoc, ?app_nil_r; cbn [app]); try reflexivity.
Ltac rds := cbv beta iota; eapply reads_eq; [rd | lists].

Lemma reads_paren s ts : reads s ts -> reads (parenthesize s) (paren ts).
Proof. intro H. unfold parenthesize, paren. rds. Qed.
Global Hint Resolve reads_paren : reads.

Lemma reads_pemdas cur left v s ts o :
  (forall o, reads (s o) ts) ->
  reads (pemdas cur left v s o) (if needs_parens cur left v then paren ts else ts).
Proof. intro H. unfold pemdas. destruct (needs_parens cur left v); auto with reads. Qed.

Lemma reads_map {A} (s : A -> string) (f : A -> list token) l :
  (forall x, In x l -> reads (s x) (f x)) -> Forall2 reads (map s l) (map f l).
Proof.
  induction l as [|x l IH]; intro H; constructor; [apply H; now left|].
  apply IH. intros y Hy; apply H; now right.
Qed.
Lemma reads_list {A} (s : A -> string) (f : A -> list token) l o :
  (forall x, In x l -> reads (s x) (f x)) -> reads (join_stmts (map s l) o) (commas (map f l)).
Proof. intro H. apply reads_stmts, reads_map, H. Qed.
Lemma reads_words l o :
  forallb wordy l = true -> reads (join_stmts l o) (commas (map (fun c => [word_token c]) l)).
Proof.
  intro H. rewrite <- (map_id l) at 1. apply (reads_list (fun x => x)).
  rewrite forallb_forall in H. intros x Hx. now apply reads_word, H.
Qed.

Lemma reads_order {A} (s : A -> string) f (x : order A) :
  reads (s (o_value x)) (f (o_value x)) -> reads (order_sql s x) (order_toks f x).
Proof. destruct x as [v d n]; cbn [o_value order_sql order_toks]; intro H. destruct d, n; rds. Qed.
Lemma reads_order_list {A} (s : A -> string) f (l : list (order A)) o :
  (forall x, In x (map o_value l) -> reads (s x) (f x)) ->
  reads (join_stmts (map (order_sql s) l) o) (commas (map (order_toks f) l)).
Proof. intro H. apply reads_list. intros x Hx. apply reads_order, H, in_map, Hx. Qed.
Lemma reads_orderby {A} (s : A -> string) f (l : list (order A)) o :
  l <> [] -> (forall x, In x (map o_value l) -> reads (s x) (f x)) ->
  reads (orderby_text s o l) (orders_toks f l).
Proof.
  intros N H. pose proof (reads_order_list s f l o H) as R. unfold orderby_text, orders_toks.
  destruct l; [congruence|]. rds.
Qed.
Lemma reads_bound {A} (s : A -> string) f (b : bound A) :
  (forall x, In x (bound_kids b) -> reads (s x) (f x)) -> reads (bound_sql s b) (bound_toks f b).
Proof.
  destruct b as [d v|d|]; cbn [bound_kids bound_sql bound_toks]; intro H.
  - specialize (H v (or_introl eq_refl)). destruct d; unfold bound_dir; rds.
  - destruct d; unfold bound_dir; rds.
  - rds.
Qed.

Lemma reads_entry_mk k v tk tv : reads k tk -> reads v tv -> reads_entry (k, v) (tk ++ tv)%list.
Proof. intros; exists tk, tv; auto. Qed.
Lemma concat_app_eq {A} (a b : list (list A)) x y :
  concat a = x -> concat b = y -> concat (a ++ b)%list = (x ++ y)%list.
Proof. intros <- <-; apply concat_app. Qed.

(** Entries and their tokens, part by part. *)
Definition reads_part (m : entries) (t : list token) : Prop :=
  exists tss, Forall2 reads_entry m tss /\ concat tss = t.
Lemma part_nil : reads_part [] [].
Proof. exists []; split; [constructor | reflexivity]. Qed.
Lemma part_app a b ta tb : reads_part a ta -> reads_part b tb -> reads_part (a ++ b)%list (ta ++ tb)%list.
Proof.
  intros (x & Hx & <-) (y & Hy & <-). exists (x ++ y)%list.
  split; [now apply Forall2_app | apply concat_app].
Qed.
Lemma part_cons k v m tk tv t :
  reads k tk -> reads v tv -> reads_part m t -> reads_part ((k, v) :: m) (tk ++ tv ++ t)%list.
Proof.
  intros Hk Hv (x & Hx & <-). exists ((tk ++ tv) :: x)%list.
  split; [constructor; [now apply reads_entry_mk | exact Hx] | cbn; apply app_assoc_reverse].
Qed.
Lemma part_one k v tk tv :
  reads k tk -> reads v tv -> reads_part [(k, v)] (tk ++ tv)%list.
Proof. intros Hk Hv. rewrite <- (app_nil_r tv). apply part_cons; auto using part_nil. Qed.
Lemma part_eq m t t' : reads_part m t -> t = t' -> reads_part m t'.
Proof. intros H <-; exact H. Qed.
Lemma reads_parts o river m t : reads_part m t -> reads (stmt_to_string o river m) t.
Proof. intros (x & Hx & <-). now apply reads_stmt. Qed.

Lemma reads_window {A} (s : A -> string) f o (w : window A) :
  window_lex w = true -> (forall x, In x (window_kids w) -> reads (s x) (f x)) ->
  reads (window_sql s o w) (window_toks f w).
Proof.
  destruct w as [p ob ps fr st en]. unfold window_sql, window_lex.
  cbn [w_parent window_kids window_entries window_toks]. intros Hp H.
  apply reads_parts. apply part_app; [|apply part_app; [|apply part_app]].
  - destruct p as [[|c n]|]; try apply part_nil. cbn [String.eqb orb] in Hp.
    apply (part_one (String c n) "" [word_token (String c n)] []); [now apply reads_word | apply reads_empty].
  - destruct ps as [|x ps]; [apply part_nil|].
    assert (R : reads (join_stmts (map s (x :: ps)) o) (commas (map f (x :: ps)))).
    { apply reads_list. intros y Hy. apply H. rewrite !in_app_iff. tauto. }
    set (l := x :: ps) in *. eapply part_eq; [apply part_one|].
    + rlits.
    + rd.
    + lists.
  - destruct ob as [|x ob]; [apply part_nil|].
    assert (R : reads (join_stmts (map (order_sql s) (x :: ob)) o) (commas (map (order_toks f) (x :: ob)))).
    { apply reads_order_list. intros y Hy. apply H. rewrite !in_app_iff. tauto. }
    unfold orders_toks. set (l := x :: ob) in *. eapply part_eq; [apply part_one|].
    + rlits.
    + rd.
    + lists.
  - assert (R1 : reads (bound_sql s st) (bound_toks f st)).
    { apply reads_bound. intros y Hy. apply H. rewrite !in_app_iff. tauto. }
    assert (R2 : reads (bound_sql s en) (bound_toks f en)).
    { apply reads_bound. intros y Hy. apply H. rewrite !in_app_iff. tauto. }
    eapply part_eq; [apply (part_one _ _ [K (frame_text fr)])|].
    + destruct fr; rlits.
    + rd.
    + lists.
Qed.

Lemma reads_fopts_entries {A} (s : A -> string) f o (x : fopts A) :
  match fo_window x with None => true | Some w => window_lex w end = true ->
  (forall y, In y (fopts_kids x) -> reads (s y) (f y)) ->
  reads (stmt_to_string o true (fopts_entries s o x)) (fopts_toks f x).
Proof.
  destruct x as [ob fi wi ig]. cbn [fo_window fopts_entries fopts_toks fopts_kids].
  intros Hw H. apply reads_parts. apply part_app; [|apply part_app].
  - destruct fi as [v|]; [|apply part_nil]. cbn [opt_kids] in H.
    assert (R : reads (s v) (f v)) by (apply H; rewrite !in_app_iff; cbn; tauto).
    eapply part_eq; [apply part_one|].
    + rlits.
    + rd.
    + cbn [filter_toks]. lists.
  - destruct ig; [|apply part_nil]. eapply part_eq; [apply part_one; rlits | reflexivity].
  - destruct wi as [w|]; [|apply part_nil].
    assert (R : reads (window_sql s o w) (window_toks f w)).
    { apply reads_window; [exact Hw|]. intros y Hy; apply H; rewrite !in_app_iff; tauto. }
    eapply part_eq; [apply part_one|].
    + rlits.
    + apply reads_paren, R.
    + cbn [over_toks]. lists.
Qed.

Lemma reads_call {A} (s : A -> string) f o name (args : list A) (x : fopts A) :
  closed (name ++ "(") (lex name ++ [TSym "("])%list ->
  match fo_window x with None => true | Some w => window_lex w end = true ->
  (forall y, In y args -> reads (s y) (f y)) ->
  (forall y, In y (fopts_kids x) -> reads (s y) (f y)) ->
  reads (call_sql s o name args x) (call_toks f name args x).
Proof.
  intros Hn Hw Ha Hx. unfold call_sql, call_toks.
  pose proof (reads_list s f args o Ha) as Ra.
  pose proof (reads_fopts_entries s f o x Hw Hx) as Rc.
  set (c := stmt_to_string o true (fopts_entries s o x)) in *.
  assert (Rc' : reads (match c with "" => "" | _ => pad (spacing o ++ c) (ospaces o) end) (fopts_toks f x)).
  { destruct c; [exact Rc|]. now apply reads_pad, reads_spacing. }
  assert (Ro : reads (match fo_orderby x with
                      | [] => join_stmts (map s args) o
                      | ob => join_stmts_d " " [join_stmts (map s args) o; orderby_text s o ob] o
                      end) (commas (map f args) ++ orders_toks f (fo_orderby x))%list).
  { destruct x as [ob fi wi ig]. cbn [fo_orderby fopts_kids] in *.
    destruct ob as [|y ob]; [cbn [orders_toks]; rewrite app_nil_r; exact Ra|].
    pose proof (reads_orderby s f (y :: ob) o ltac:(discriminate)
                  (fun z Hz => Hx z (in_or_app _ _ _ (or_introl Hz)))) as R.
    set (l := y :: ob) in *.
    pose proof (reads_stmts_blank o [join_stmts (map s args) o; orderby_text s o l]
                  [commas (map f args); orders_toks f l]) as B.
    cbn [concat] in B. rewrite app_nil_r in B. apply B. constructor; [exact Ra | constructor; [exact R | constructor]]. }
  rewrite <- sapp_assoc. eapply reads_eq.
  - eapply closed_app; [exact Hn|]. eapply reads_app; [exact Ro | reflexivity |].
    eapply closed_app; [clits | exact Rc'].
  - unfold paren. lists.
Qed.
Lemma closed_fn f : closed (fn_name f ++ "(") (lex (fn_name f) ++ [TSym "("])%list.
Proof. destruct f; (apply closed_val; val). Qed.
Lemma reads_fn f : reads (fn_name f) (lex (fn_name f)).
Proof. destruct f; apply reads_lit; val. Qed.

Lemma line_Z z : line (str_of_Z z).
Proof.
  unfold str_of_Z. assert (N : forall n, line (str_of_N n)).
  { intro n. eapply forall_line; [apply digit_not_break | apply str_of_N_digits]. }
  destruct z; [apply N | apply N |]. apply (line_app "-"); [reflexivity | apply N].
Qed.
Lemma line_join l : Forall line l -> line (join "," l).
Proof.
  induction 1 as [|x l Hx Hl IH]; [reflexivity|]. destruct l as [|y r]; [exact Hx|].
  rewrite join_cons2. repeat apply line_app; auto; reflexivity.
Qed.
Lemma line_type t : line (type_sql t).
Proof.
  induction t as [s|p s|m|m|p z|p z|k|t IH|k v IHk IHv|l IH|t IH] using dtype_ind'; cbn [type_sql].
  - destruct s; reflexivity.
  - repeat apply line_app; try reflexivity; apply line_Z.
  - destruct m; [|reflexivity]. repeat apply line_app; try reflexivity; apply line_Z.
  - repeat apply line_app; try reflexivity; apply line_Z.
  - unfold timelike_sql. destruct p as [p|], z; repeat apply line_app; try reflexivity; apply line_Z.
  - unfold timelike_sql. destruct p as [p|], z; repeat apply line_app; try reflexivity; apply line_Z.
  - destruct k; reflexivity.
  - repeat apply line_app; try reflexivity; assumption.
  - repeat apply line_app; try reflexivity; assumption.
  - repeat apply line_app; try reflexivity. apply line_join. induction IH; constructor; assumption.
  - repeat apply line_app; try reflexivity; assumption.
Qed.
Lemma reads_type t : wf_type t = true -> reads (type_sql t) (type_toks false t).
Proof.
  intro H. apply rd_last; [apply line_type|]. rewrite <- type_sql_c_false. now apply lexes_type.
Qed.

(** * Texts that may follow a minus sign *)
Lemma after_minus_lit c s : (Ascii.eqb c "-" || Ascii.eqb c ">" || Ascii.eqb c "}")%bool = false ->
  after_minus (String c s).
Proof.
  intros [[H1 H2]%orb_false_iff H3]%orb_false_iff. apply eqb_neq in H1, H2, H3. now repeat split.
Qed.
Lemma letter_not_minus : forall c, (is_letter c || Ascii.eqb c "_")%bool = true ->
  (Ascii.eqb c "-" || Ascii.eqb c ">" || Ascii.eqb c "}")%bool = false.
Proof.
  assert (H : forall c, implb (is_letter c || Ascii.eqb c "_")
    (negb (Ascii.eqb c "-" || Ascii.eqb c ">" || Ascii.eqb c "}")) = true) by by_all_ascii.
  intros c Hc; specialize (H c). rewrite Hc in H. now apply negb_true_iff.
Qed.
Lemma wordy_after_minus n : wordy n = true -> after_minus n.
Proof.
  destruct n as [|c n]; [discriminate|]. intros [H _]%andb_true_iff.
  now apply after_minus_lit, letter_not_minus.
Qed.
Lemma fn_after_minus f : after_minus (fn_name f).
Proof. destruct f; apply after_minus_lit; reflexivity. Qed.
Lemma str_of_Z_after_minus z : (0 <=? z)%Z = true -> after_minus (str_of_Z z).
Proof.
  intro Hz. unfold str_of_Z. assert (N : forall n, after_minus (str_of_N n)).
  { intro n. rewrite <- (sapp_nil_r (str_of_N n)).
    apply digits_after_minus; [|apply str_of_N_digits].
    destruct (str_of_N_cons n) as (c & r & -> & _). discriminate. }
  destruct z; [apply N | apply N | discriminate Hz].
Qed.
Lemma pemdas_after_minus cur left v s o :
  (needs_parens cur left v || neg_ok v)%bool = true ->
  (neg_ok v = true -> forall o, after_minus (s o)) -> after_minus (pemdas cur left v s o).
Proof.
  unfold pemdas. destruct (needs_parens cur left v); [intros _ _; now apply after_minus_lit|].
  intros H Hs; now apply Hs.
Qed.
Lemma join_stmts_one x o : join_stmts [x] o = x.
Proof.
  unfold join_stmts, join_stmts_d, join_core. cbn [join_loop length]. cbn [Nat.eqb].
  destruct (_ && _)%bool; reflexivity.
Qed.

Lemma quote_after_minus q s : (Ascii.eqb q "-" || Ascii.eqb q ">" || Ascii.eqb q "}")%bool = false ->
  after_minus (String q (s ++ String q "")).
Proof. apply after_minus_lit. Qed.

Lemma neg_ok_after e : lexable e -> neg_ok e = true -> forall neg o, after_minus (sql_n neg e o).
Proof.
  induction 1 as [e Hh Hk IH]; intros Hn neg o.
  destruct e; cbn [sql_n]; cbn [neg_ok] in Hn; cbn [kids] in IH; cbn [lex_here] in Hh;
    try discriminate Hn; try (now apply after_minus_lit);
    try (apply after_minus_app, pemdas_after_minus; [exact Hn | intros Hv o'; apply IH; [now left | exact Hv]]).
  - destruct l as [|b|z|d|s|r]; cbn [lit_sql].
    + now apply after_minus_lit.
    + destruct b; now apply after_minus_lit.
    + now apply str_of_Z_after_minus.
    + destruct (dec_str_form d Hh) as (a & b & E & Na & Ha & Hb & _). rewrite E.
      apply negb_true_iff in Hn. rewrite Hn. change (after_minus (a ++ "." ++ b)). now apply digits_after_minus.
    + now apply after_minus_lit.
    + discriminate Hh.
  - apply andb_true_iff in Hh as [_ Hh].
    destruct table as [|[|c s]|v]; try discriminate Hh; now apply after_minus_lit.
  - now apply wordy_after_minus.
  - apply andb_true_iff in Hh as [Hh Hw]. apply after_minus_app.
    destruct vars as [|x [|y r]]; [discriminate Hh| |now apply after_minus_lit].
    rewrite join_stmts_one. apply andb_true_iff in Hw as [Hw _]. now apply wordy_after_minus.
  - destruct op; try discriminate Hn.
    + now apply after_minus_lit.
    + destruct (negatable e); [|now apply after_minus_lit]. apply IH; [now left | exact Hn].
    + apply after_minus_app, pemdas_after_minus; [exact Hn | intros Hv o'; apply IH; [now left | exact Hv]].
  - destruct op;
      (apply after_minus_app, pemdas_after_minus; [exact Hn | intros Hv o'; apply IH; [now left | exact Hv]]).
  - apply andb_true_iff in Hh as [_ Hh]. now apply after_minus_app, wordy_after_minus.
  - destruct try_; now apply after_minus_lit.
  - apply after_minus_app, IH; [now left | exact Hn].
  - destruct (fn_bare f); [apply fn_after_minus|]. unfold call_sql. apply after_minus_app, fn_after_minus.
  - destruct (Z.eqb precision 3); [apply fn_after_minus|]. apply after_minus_app, fn_after_minus.
Qed.

(** * Names followed by a dot and a star *)
Lemma reads_star n : wordy n = true -> reads (n ++ ".*") [word_token n; TSym "."; TSym "*"].
Proof.
  intro H. apply rd_last; [apply line_app; [now apply wordy_line | reflexivity]|].
  intros k Hk. rewrite sapp_assoc. cbn [append]. set (k' := String "*" k).
  destruct n as [|c n]; [discriminate|]. cbn [wordy] in H. apply andb_true_iff in H as [Hc Hw].
  cbn [append]. rewrite lex_cons. unfold next_token.
  destruct (letter_facts c Hc) as (E1 & E2 & E3 & E4 & E5). rewrite E1, E2, E3, E4, E5, Hc.
  assert (Es : span is_word (String c (n ++ String "." k')) = (String c n, String "." k')).
  { apply (span_spec is_word (String c n) (String "." k') Hw). reflexivity. }
  rewrite Es; clear Es. set (w := String c n). cbn iota.
  pose proof (closed_lit ".*" eq_refl) as [_ D]. specialize (D k). cbn [append] in D.
  change (lex ".*") with [TSym "."; TSym "*"] in D. fold k' in D. cbn [app] in D.
  destruct (String.eqb w "U"); [|destruct (String.eqb w "X")]; cbn [app]; rewrite <- D; reflexivity.
Qed.

(** * Texts that follow something *)
Lemma stop_pad s n : stop s = true -> stop (pad s n) = true.
Proof.
  destruct (has_lines_total s) as [ls H]. rewrite (pad_lines s ls n H).
  destruct H as [|l N B|l t s ls B T H R]; [auto | auto |].
  destruct l as [|c l]; [intros _|].
  - destruct ls; reflexivity.
  - intro Hs. destruct ls; [exact Hs | rewrite join_cons2; exact Hs].
Qed.
Lemma stop_pad_spacing o s n k : stop (pad (spacing o ++ s) n ++ spacing o ++ k) = true.
Proof. apply stop_app; [apply stop_pad|]; apply stop_spacing. Qed.
Global Hint Resolve stop_pad_spacing stop_pad : reads.

(** * Parts of queries *)
Lemma reads_set {A} (s : A -> string) f o l :
  (forall x, In x l -> reads (s x) (f x)) -> reads (set_sql s o l) (set_toks f l).
Proof.
  intro H. unfold set_sql, set_toks, list_sql.
  assert (R : reads (join_stmts (map s l) o) (commas (map f l))) by now apply reads_list.
  destruct l as [|x [|y r]]; [|apply H; now left|]; unfold paren; rds.
Qed.
Lemma reads_group {A} (s : A -> string) f o g :
  (forall x, In x (group_kids g) -> reads (s x) (f x)) -> reads (group_sql s o g) (group_toks f g).
Proof.
  destruct g as [l|ll|l|l]; cbn [group_kids group_sql group_toks]; intro H; unfold list_sql, paren.
  - now apply reads_set.
  - assert (R : reads (join_stmts (map (set_sql s o) ll) o) (commas (map (set_toks f) ll))).
    { apply reads_list. intros l Hl. apply reads_set. intros x Hx. apply H, in_concat. eauto. }
    rds.
  - pose proof (reads_list s f l o H) as R. rds.
  - pose proof (reads_list s f l o H) as R. rds.
Qed.
Lemma reads_groupby {A} (s : A -> string) f o g :
  (forall x, In x (groupby_kids g) -> reads (s x) (f x)) -> reads (groupby_sql s o g) (groupby_toks f g).
Proof.
  destruct g as [gs d]; cbn [groupby_kids groupby_sql groupby_toks]; intro H.
  assert (R : reads (join_stmts (map (group_sql s o) gs) o) (commas (map (group_toks f) gs))).
  { apply reads_list. intros g Hg. apply reads_group. intros x Hx. apply H, in_concat.
    exists (group_kids g). split; [now apply in_map | exact Hx]. }
  destruct d; rds.
Qed.
Lemma reads_rel newline joins e s t o : reads s t -> reads (relation_string newline joins e s o) (rel_toks joins e t).
Proof.
  intro H. unfold relation_string, rel_toks. destruct (is_query e || joins && is_join e)%bool; [|exact H].
  apply reads_paren. destruct (is_pretty o && newline)%bool; [now apply reads_nls | exact H].
Qed.
Global Hint Resolve reads_rel reads_ident reads_literal reads_word : reads.

Lemma reads_named (s : node -> string) f o e :
  is_aliased_rel e = true -> lex_here e = true ->
  (forall x, In x (kids e) -> reads (s x) (f x)) ->
  reads (named_query_sql s o e) (named_toks f e).
Proof.
  destruct e; try discriminate. intros _ [Ha Hc]%andb_true_iff H.
  cbn [named_query_sql named_toks]. unfold qid.
  pose proof (reads_ident _ Ha) as Ra. pose proof (reads_words cols o Hc) as Rc.
  assert (Rr : reads (relation_string true false e (s e) o) (rel_toks false e (f e))).
  { apply reads_rel, H. now left. }
  destruct cols; rds.
Qed.

Lemma reads_count k c : reads k [K k] -> reads_part (count_entry k c) (count_toks k c).
Proof.
  intro H. unfold count_entry, count_toks. destruct c as [z|]; [|apply part_nil].
  destruct z; [apply part_nil| |];
    (eapply part_eq; [apply part_one; [exact H | apply reads_int] | reflexivity]).
Qed.
Lemma reads_constraint {A} (s : A -> string) f o q :
  (forall x, In x (map o_value (q_orderby q)) -> reads (s x) (f x)) ->
  reads_part (constraint_entries s o q) (constraint_toks f q).
Proof.
  destruct q as [wi ob off lim]; cbn [q_orderby constraint_entries constraint_toks]; intro H.
  apply part_app; [|apply part_app; apply reads_count; rlits].
  pose proof (reads_order_list s f ob o H) as R. unfold orders_toks.
  destruct ob; [apply part_nil|]. eapply part_eq; [apply part_one; [rlits | rd] | lists].
Qed.
Lemma part_opt {A} k tk (s : A -> string) f x :
  reads k tk -> (forall v, x = Some v -> reads (s v) (f v)) -> reads_part (opt_entry k s x) (opt_toks tk f x).
Proof.
  intros Hk H. destruct x as [v|]; [|apply part_nil]. cbn [opt_entry opt_toks]. apply part_one; auto.
Qed.

Lemma in_opt {A} (x : option A) v : x = Some v -> In v (opt_kids x).
Proof. intros ->; now left. Qed.

Lemma reads_with (s : node -> string) f o q :
  with_lex q = true -> (forall x, In x (qattrs_kids q) -> lexable x) ->
  (forall x y, In x (qattrs_kids q) -> In y (kids x) -> reads (s y) (f y)) ->
  reads_part (with_entries s o q) (with_toks f q).
Proof.
  intros Hw Hl H. unfold with_entries, with_toks.
  assert (R : reads (join_stmts (map (named_query_sql s o) (q_with q)) o) (commas (map (named_toks f) (q_with q)))).
  { apply reads_list. intros x Hx.
    assert (Hi : In x (qattrs_kids q)) by (destruct q; cbn in *; rewrite in_app_iff; auto).
    apply reads_named; [now apply (proj1 (forallb_forall _ _) Hw)| |].
    - destruct (Hl x Hi); assumption.
    - intros y Hy. now apply (H x). }
  destruct (q_with q); [apply part_nil|]. eapply part_eq; [apply part_one; [rlits | exact R] | reflexivity].
Qed.
Lemma orderby_kids {A} (q : qattrs A) x : In x (map o_value (q_orderby q)) -> In x (qattrs_kids q).
Proof. destruct q; cbn. rewrite in_app_iff; auto. Qed.

(** * The main fact *)
Lemma reads_step e :
  lex_here e = true -> (forall x, In x (kids e) -> lexable x) ->
  (forall x, In x (kids e) -> forall neg o, reads (sql_n neg x o) (toks_n neg x)) ->
  (forall x y, In x (kids e) -> In y (kids x) -> forall neg o, reads (sql_n neg y o) (toks_n neg y)) ->
  forall neg o, reads (sql_n neg e o) (toks_n neg e).
Proof.
  intros Hh Hl IH IH2 neg o.
  assert (IHo : forall x, In x (kids e) -> reads (sql_n false x o) (toks_n false x)) by (intros; now apply IH).
  assert (P : forall cur left x, In x (kids e) ->
    reads (pemdas cur left x (sql_n false x) o)
          (if needs_parens cur left x then paren (toks_n false x) else toks_n false x)).
  { intros; apply reads_pemdas; intro; now apply IH. }
  assert (ND : reads (if neg then " NOT" else "") (if neg then [K "NOT"] else [])).
  { destruct neg; [rlits | apply reads_empty]. }
  destruct e; cbn [sql_n toks_n]; cbn [lex_here] in Hh; try discriminate Hh.
  - (* Literal *) destruct l as [|b|z|d|s|r]; cbn [lit_sql lit_toks]; try discriminate Hh.
    + rlits.
    + destruct b; rlits.
    + apply reads_int.
    + now apply reads_dec.
    + now apply reads_literal.
  - (* Field *) apply andb_true_iff in Hh as [Hn Ht]. unfold chain_identifiers.
    destruct table as [|[|c s]|v]; try discriminate Ht; cbn [tref_text drop_none].
    + apply (reads_chain [name]). cbn [forallb]. now rewrite Hn.
    + apply (reads_chain [name]). cbn [forallb]. now rewrite Hn.
    + apply (reads_chain [String c s; name]). cbn [tref_lex String.eqb orb] in Ht.
      cbn [forallb]. now rewrite Ht, Hn.
  - (* AliasedValue *)
    assert (R := IHo _ (or_introl eq_refl)). pose proof (reads_ident _ Hh) as Ra. unfold qid. rds.
  - (* Star *)
    destruct table as [|[|c s]|v]; try discriminate Hh; cbn [tref_text].
    + rlits.
    + rlits.
    + now apply reads_star.
  - (* AliasedStar *)
    assert (R := IHo _ (or_introl eq_refl)). pose proof (reads_words aliases o Hh) as Rc. unfold paren. rds.
  - (* Variable *) now apply reads_word.
  - (* Lambda *)
    apply andb_true_iff in Hh as [Hn Hw].
    assert (R := IHo _ (or_introl eq_refl)). pose proof (reads_words vars o Hw) as Rc.
    destruct vars as [|x [|y r]]; rds.
  - (* unary *)
    assert (R := fun cur => P cur true _ (or_introl eq_refl)).
    destruct op.
    + pose proof (R (Some 8)) as R8. rds.
    + apply reads_minus; [|apply R]. apply pemdas_after_minus; [exact Hh|].
      intros Hv o'. apply neg_ok_after; [apply Hl; now left | exact Hv].
    + destruct (negatable e); [apply IH; now left|]. pose proof (R (Some 2)) as R2. rds.
    + pose proof (R (Some 3)) as R3. destruct neg; rds.
  - (* binary *)
    assert (R1 := fun cur => P cur true _ (or_introl eq_refl)).
    assert (R2 := fun cur => P cur false _ (or_intror (or_introl eq_refl))).
    specialize (R1 (binop_prec op)). specialize (R2 (binop_prec op)).
    destruct op; [| | | | | | | | | | | | |]; destruct neg; cbn [binop_text binop_toks];
      try (cbn [binop_prec] in *; rds).
    (* NotEqual, negated *)
    assert (R1' := reads_pemdas (binop_prec BNe) true e1 (sql_n false e1) _ default_opts (IH _ (or_introl eq_refl) false)).
    assert (R2' := reads_pemdas (binop_prec BNe) false e2 (sql_n false e2) _ default_opts (IH _ (or_intror (or_introl eq_refl)) false)).
    rds.
  - (* Between *)
    assert (R1 := P (Some 3) true _ (or_introl eq_refl)).
    assert (R2 := P (Some 3) true _ (or_intror (or_introl eq_refl))).
    assert (R3 := P (Some 3) true _ (or_intror (or_intror (or_introl eq_refl)))).
    destruct neg; rds.
  - (* Array *)
    pose proof (reads_list (fun x => sql_n false x o) (toks_n false) vs o IHo) as R. rds.
  - (* InQuery *)
    assert (R1 := P (Some 3) true _ (or_introl eq_refl)).
    assert (R2 := IHo _ (or_intror (or_introl eq_refl))). unfold paren.
    destruct neg; rds.
  - (* InList *)
    assert (R1 := P (Some 3) true _ (or_introl eq_refl)).
    pose proof (reads_list (fun x => sql_n false x o) (toks_n false) vs o
                  (fun x Hx => IHo x (or_intror Hx))) as R. unfold paren.
    destruct neg; rds.
  - (* Like *)
    assert (R1 := P (Some 3) true _ (or_introl eq_refl)).
    assert (R2 := P (Some 3) true _ (or_intror (or_introl eq_refl))).
    destruct esc as [x|].
    + assert (R3 := IHo _ (or_intror (or_intror (or_introl eq_refl)))). destruct neg; rds.
    + destruct neg; rds.
  - (* TypeConstructor *)
    apply andb_true_iff in Hh as [Hv Hn]. pose proof (reads_word _ Hn). pose proof (reads_literal _ Hv).
    unfold sid. rds.
  - (* Row *)
    pose proof (reads_list (fun x => sql_n false x o) (toks_n false) vs o IHo) as R. unfold paren. rds.
  - (* Cast *)
    assert (R := IHo _ (or_introl eq_refl)). pose proof (reads_type _ Hh) as Rt. unfold paren.
    destruct try_; rds.
  - (* Subscript *)
    assert (R1 := IHo _ (or_introl eq_refl)). assert (R2 := IHo _ (or_intror (or_introl eq_refl))). rds.
  - (* Case *)
    assert (Rb : forall c x, In (c, x) branches ->
      reads ("WHEN " ++ sql_n false c o ++ " THEN " ++ sql_n false x o)
            (K "WHEN" :: toks_n false c ++ K "THEN" :: toks_n false x)%list).
    { intros c x Hi.
      assert (Rc : reads (sql_n false c o) (toks_n false c)).
      { apply IHo. cbn [kids]. rewrite !in_app_iff. left. apply in_concat. exists [c; x].
        split; [|now left]. apply in_map_iff. exists (c, x); auto. }
      assert (Rx : reads (sql_n false x o) (toks_n false x)).
      { apply IHo. cbn [kids]. rewrite !in_app_iff. left. apply in_concat. exists [c; x].
        split; [|right; now left]. apply in_map_iff. exists (c, x); auto. }
      rds. }
    set (ws := (map _ branches ++ _)%list). set (ts := concat (map _ branches)).
    assert (Rw : reads (join (spacing o) ws) (ts ++ match else_ with None => [] | Some x => K "ELSE" :: toks_n false x end)%list).
    { assert (F : exists tss, Forall2 reads ws tss /\ concat tss = (ts ++ match else_ with None => [] | Some x => K "ELSE" :: toks_n false x end)%list).
      { eexists (map (fun cv => let '(c, x) := cv in K "WHEN" :: toks_n false c ++ K "THEN" :: toks_n false x)%list branches ++ match else_ with None => [] | Some x => [K "ELSE" :: toks_n false x] end)%list.
        split.
        - apply Forall2_app.
          + apply reads_map. intros [c x] Hi. now apply Rb.
          + destruct else_ as [x|]; [|constructor].
            assert (R : reads (sql_n false x o) (toks_n false x)).
            { apply IHo. cbn [kids opt_kids]. rewrite !in_app_iff. right; left; now left. }
            constructor; [rds | constructor].
        - rewrite concat_app. subst ts. destruct else_; cbn [concat]; now rewrite ?app_nil_r. }
      destruct F as (tss & F & <-). unfold spacing. destruct (is_pretty o).
      - rewrite <- tjoin_nil. apply (reads_sep nls); [now right | reflexivity | exact F].
      - rewrite <- tjoin_nil. apply (reads_sep " "); [left; now apply closed_lit | reflexivity | exact F]. }
    assert (Rp : reads (pad (spacing o ++ join (spacing o) ws) 4) (ts ++ match else_ with None => [] | Some x => K "ELSE" :: toks_n false x end)%list).
    { now apply reads_pad, reads_spacing. }
    destruct value as [x|].
    + assert (R : reads (sql_n false x o) (toks_n false x)).
      { apply IHo. cbn [kids opt_kids]. rewrite !in_app_iff. right; right; now left. }
      rds.
    + rds.
  - (* function *)
    destruct (fn_bare f); [apply reads_fn|].
    apply reads_call; [apply closed_fn | exact Hh | |]; intros y Hy; apply IHo; cbn [kids];
      rewrite in_app_iff; tauto.
  - (* CURRENT_TIME and so on *)
    destruct (Z.eqb precision 3); [apply reads_fn|].
    rewrite <- sapp_assoc. pose proof (reads_int precision) as R.
    eapply reads_eq; [eapply closed_app; [apply closed_fn | rd] | unfold paren; lists].
  - (* LISTAGG *)
    apply andb_true_iff in Hh as [Hs Ho].
    assert (R := IHo _ (or_introl eq_refl)). pose proof (reads_literal _ Hs) as Rs.
    set (s := fun x => sql_n false x o) in *.
    assert (Ro : reads (orderby_text s o orderby) (K "ORDER" :: K "BY" :: commas (map (order_toks (toks_n false)) orderby))).
    { pose proof (reads_order_list s (toks_n false) orderby o
                    (fun x Hx => IHo x (or_intror Hx))) as R'. unfold orderby_text. rds. }
    assert (Rq : reads (if String.eqb sep " " then sql_n false e o
                        else join_stmts [sql_n false e o; quote_literal sep] o)
                   (toks_n false e ++ (if String.eqb sep " " then [] else [TSym ","; sid sep]))%list).
    { destruct (String.eqb sep " "); [rewrite app_nil_r; exact R|].
      apply (reads_stmts o [sql_n false e o; quote_literal sep] [toks_n false e; [sid sep]]).
      constructor; [exact R | constructor; [exact Rs | constructor]]. }
    set (a := if String.eqb sep " " then _ else _) in *.
    set (ta := (toks_n false e ++ _)%list) in *.
    assert (Ra : reads (match overflow with
                        | None => a
                        | Some x => join_stmts_d " " [a; "ON OVERFLOW " ++ overflow_sql x] o
                        end) (ta ++ match overflow with None => [] | Some x => overflow_toks x end)%list).
    { destruct overflow as [[c fl]|]; [|rewrite app_nil_r; exact Rq].
      cbn [snd] in Ho. pose proof (reads_literal _ Ho) as Rl.
      assert (Rv : reads ("ON OVERFLOW " ++ overflow_sql (c, fl)) (overflow_toks (c, fl))).
      { cbn [overflow_sql overflow_toks]. unfold sid. destruct c; rds. }
      pose proof (reads_stmts_blank o [a; "ON OVERFLOW " ++ overflow_sql (c, fl)] [ta; overflow_toks (c, fl)]) as B.
      cbn [concat] in B. rewrite app_nil_r in B. apply B.
      constructor; [exact Rq | constructor; [exact Rv | constructor]]. }
    assert (Rw : reads (pad (spacing o ++ "WITHIN GROUP (" ++ orderby_text s o orderby ++ ")") (ospaces o))
                   (K "WITHIN" :: K "GROUP" :: paren (K "ORDER" :: K "BY" :: commas (map (order_toks (toks_n false)) orderby)))).
    { apply reads_pad. unfold paren. rds. }
    subst ta. eapply reads_eq.
    + eapply closed_app; [clits|]. eapply reads_app; [exact Ra | reflexivity |].
      eapply closed_app; [clits | exact Rw].
    + unfold paren. lists.
  - (* SelectQuery *)
    apply andb_true_iff in Hh as [Hw Hq]. cbn [kids] in *.
    set (s := fun x => sql_n false x o) in *. set (t := toks_n false) in *.
    assert (Pw : reads_part (with_entries s o qa) (with_toks t qa)).
    { apply reads_with; [exact Hq | |]; intros; [apply Hl | eapply IH2; [|eassumption]];
        rewrite !in_app_iff; auto 10. }
    assert (Ps : reads_part [("SELECT", distinct_prefix distinct (join_stmts (map s select) o))]
                   (K "SELECT" :: (if distinct then [K "DISTINCT"] else []) ++ commas (map t select))%list).
    { assert (R : reads (join_stmts (map s select) o) (commas (map t select))).
      { apply reads_list. intros; apply IHo. rewrite !in_app_iff; auto. }
      unfold distinct_prefix.
      destruct distinct; (eapply part_eq; [apply part_one; [rlits | rd] | lists]). }
    assert (Pf : reads_part (opt_entry "FROM" (fun r => if is_query r then pad (parenthesize (s r)) 1 else s r) from_)
                   (opt_toks [K "FROM"] (fun r => rel_toks false r (t r)) from_)).
    { apply part_opt; [rlits|]. intros r Hr. pose proof (in_opt _ _ Hr) as Hi.
      assert (R : reads (s r) (t r)) by (apply IHo; rewrite !in_app_iff; auto).
      unfold rel_toks. cbn [andb]. rewrite orb_false_r.
      destruct (is_query r); [now apply reads_pad, reads_paren | exact R]. }
    assert (Ph : reads_part (opt_entry "WHERE" s wh) (opt_toks [K "WHERE"] t wh)).
    { apply part_opt; [rlits|]. intros r Hr. apply IHo. pose proof (in_opt _ _ Hr) as Hi.
      rewrite !in_app_iff; auto. }
    assert (Pg : reads_part (opt_entry "GROUP" (fun g => "BY " ++ groupby_sql s o g) gb)
                   (opt_toks [K "GROUP"; K "BY"] (groupby_toks t) gb)).
    { destruct gb as [g|]; [|apply part_nil]. cbn [opt_entry opt_toks].
      assert (R : reads (groupby_sql s o g) (groupby_toks t g)).
      { apply reads_groupby. intros; apply IHo. rewrite !in_app_iff; auto. }
      eapply part_eq; [apply part_one; [rlits | rd] | lists]. }
    assert (Pv : reads_part (opt_entry "HAVING" s having) (opt_toks [K "HAVING"] t having)).
    { apply part_opt; [rlits|]. intros r Hr. apply IHo. pose proof (in_opt _ _ Hr) as Hi.
      rewrite !in_app_iff; auto 10. }
    assert (Pn : reads_part
      match windows with
      | [] => []
      | _ => [("WINDOW", join_stmts (map (fun nw => let '(n, w) := nw in
                       n ++ " AS " ++ parenthesize (window_sql s o w)) windows) o)]
      end
      (match windows with
       | [] => []
       | _ => K "WINDOW" :: commas (map (fun nw => let '(n, w) := nw in
                                     word_token n :: K "AS" :: paren (window_toks t w)) windows)
       end)).
    { assert (R : reads (join_stmts (map (fun nw => let '(n, w) := nw in
                       n ++ " AS " ++ parenthesize (window_sql s o w)) windows) o)
                   (commas (map (fun nw => let '(n, w) := nw in
                                     word_token n :: K "AS" :: paren (window_toks t w)) windows))).
      { apply reads_list. intros [n w] Hi. rewrite forallb_forall in Hw.
        pose proof (Hw _ Hi) as [Hn Hx]%andb_true_iff. cbn [fst snd] in Hn, Hx.
        pose proof (reads_word _ Hn) as Rn.
        assert (R : reads (window_sql s o w) (window_toks t w)).
        { apply reads_window; [exact Hx|]. intros x Hy. apply IHo. rewrite !in_app_iff.
          do 5 right; left. apply in_concat. exists (window_kids w).
          split; [|exact Hy]. apply in_map_iff. exists (n, w); auto. }
        rds. }
      destruct windows; [apply part_nil|]. eapply part_eq; [apply part_one; [rlits | exact R] | reflexivity]. }
    assert (Pc : reads_part (constraint_entries s o qa) (constraint_toks t qa)).
    { apply reads_constraint. intros x Hx. apply IHo. apply orderby_kids in Hx. rewrite !in_app_iff; auto 10. }
    apply reads_parts. eapply part_eq.
    + apply part_app; [exact Pw|]. apply part_app; [exact Ps|]. apply part_app; [exact Pf|].
      apply part_app; [exact Ph|]. apply part_app; [exact Pg|]. apply part_app; [exact Pv|].
      apply part_app; [exact Pn | exact Pc].
    + lists.
  - (* set operations *)
    pose proof (reads_rel false false e1 _ _ o (IHo _ (or_introl eq_refl))) as R1.
    pose proof (reads_rel false false e2 _ _ o (IHo _ (or_intror (or_introl eq_refl)))) as R2.
    unfold set_op_toks, quant_text. destruct op, distinct; cbn [set_op_text]; rds.
  - (* TABLE *)
    cbn [kids] in *.
    assert (Pw : reads_part (with_entries (fun x => sql_n false x o) o qa) (with_toks (toks_n false) qa)).
    { apply reads_with; [exact Hh | |]; intros; [apply Hl | eapply IH2; [|eassumption]]; now right. }
    assert (Pc : reads_part (constraint_entries (fun x => sql_n false x o) o qa) (constraint_toks (toks_n false) qa)).
    { apply reads_constraint. intros x Hx. apply IHo. right. now apply orderby_kids. }
    apply reads_parts. eapply part_eq.
    + apply part_app; [exact Pw|]. apply part_app; [|exact Pc].
      apply part_one; [rlits | apply IHo; now left].
    + lists.
  - (* VALUES *)
    cbn [kids] in *.
    assert (Pw : reads_part (with_entries (fun x => sql_n false x o) o qa) (with_toks (toks_n false) qa)).
    { apply reads_with; [exact Hh | |]; intros; [apply Hl | eapply IH2; [|eassumption]]; rewrite in_app_iff; auto. }
    assert (Pc : reads_part (constraint_entries (fun x => sql_n false x o) o qa) (constraint_toks (toks_n false) qa)).
    { apply reads_constraint. intros x Hx. apply IHo. rewrite in_app_iff. right. now apply orderby_kids. }
    apply reads_parts. eapply part_eq.
    + apply part_app; [exact Pw|]. apply part_app; [|exact Pc].
      apply part_one; [rlits|]. apply (reads_list (fun x => sql_n false x o) (toks_n false)).
      intros; apply IHo. rewrite in_app_iff; auto.
    + lists.
  - (* Table *)
    apply andb_true_iff in Hh as [Hh Hc]. apply andb_true_iff in Hh as [Hn Hs].
    unfold chain_identifiers, chain_toks. apply reads_chain.
    destruct schema, catalog; cbn [opt_lex] in Hc, Hs; cbn [drop_none forallb]; now rewrite ?Hc, ?Hs, ?Hn.
  - (* AliasedRelation *)
    apply andb_true_iff in Hh as [Ha Hc]. pose proof (reads_ident _ Ha) as Ra. unfold qid.
    pose proof (reads_rel true false e _ _ o (IHo _ (or_introl eq_refl))) as R1.
    pose proof (reads_words cols o Hc) as Rc. unfold paren.
    destruct cols; rds.
  - (* Join *)
    pose proof (reads_rel true false e1 _ _ o (IHo _ (or_introl eq_refl))) as R1.
    pose proof (reads_rel true false e2 _ _ o (IHo _ (or_intror (or_introl eq_refl)))) as R2.
    apply reads_parts. eapply part_eq.
    + apply part_app; [apply part_cons; [exact R1 | apply reads_empty | apply part_one; [|exact R2]] |].
      * instantiate (1 := ((if natural then [K "NATURAL"] else []) ++ join_toks jt ++ [K "JOIN"])%list).
        destruct natural, jt; rlits.
      * instantiate (1 := match crit with None => [] | Some x => crit_toks (toks_n false) x end).
        destruct crit as [[cols|x]|]; [| |apply part_nil]; cbn [crit_entry crit_toks].
        -- pose proof (reads_words cols o Hh) as Rc.
           eapply part_eq; [apply part_one; [rlits | apply reads_paren, Rc] | reflexivity].
        -- eapply part_eq; [apply part_one; [rlits | apply reads_pad, IHo; right; right; now left] | reflexivity].
    + lists.
  - (* Unnest *)
    pose proof (reads_list (fun x => sql_n false x o) (toks_n false) arrays o IHo) as R.
    apply negb_true_iff in Hh as ->. unfold paren. rds.
  - (* Lateral *)
    assert (R := IHo _ (or_introl eq_refl)). unfold paren. rds.
  - (* TableSample *)
    pose proof (reads_rel false true e1 _ _ o (IHo _ (or_introl eq_refl))) as R1.
    assert (R2 := IHo _ (or_intror (or_introl eq_refl))). unfold paren.
    destruct st; cbn [sample_text]; rds.
Qed.

Lemma reads_sql_all e : lexable e ->
  (forall neg o, reads (sql_n neg e o) (toks_n neg e))
  /\ (forall x, In x (kids e) -> forall neg o, reads (sql_n neg x o) (toks_n neg x)).
Proof.
  induction 1 as [e Hh Hl IH]. split; [|intros x Hx; now apply IH].
  apply reads_step; [exact Hh | exact Hl | intros x Hx; now apply IH |].
  intros x y Hx Hy. now apply (IH x Hx).
Qed.
(** The text of a lexable object consists of its tokens, whatever the options. *)
Lemma reads_sql e o : lexable e -> reads (sql e o) (toks e).
Proof. intro H. now apply reads_sql_all. Qed.
Lemma lex_sql e o : lexable e -> lex (sql e o) = toks e.
Proof. intro H. now apply reads_lex, reads_sql. Qed.

Lemma lexable_dec n e : lexable_n n e = true -> lexable e.
Proof.
  revert e; induction n as [|n IH]; intros e H; [discriminate|]. cbn [lexable_n] in H.
  apply andb_true_iff in H as [H1 H2]. constructor; [exact H1|].
  rewrite forallb_forall in H2. intros x Hx. now apply IH, H2.
Qed.
