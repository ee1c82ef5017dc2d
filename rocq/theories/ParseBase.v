(** Facts about the expression parser, part 1: what may follow an expression,
    how expressions start, and the loops and lists of Parser.v. *)
From Coq Require Import String Ascii List ZArith NArith Bool Lia Arith.
From Verif Require Import PyStr StrFacts Types Inference Lexer LexFacts TypeParser TypeRoundTrip
  Functions Ast Sql Parser Tokens.
Import ListNotations.
Open Scope nat_scope.
Open Scope string_scope.
Open Scope list_scope.

(** * What follows an expression

    The binding level of the token after an expression: 0 if it ends any
    expression, 1 OR, 2 AND, 4 a predicate, 5 to 7 the binary operators, 8 AT,
    9 a subscript, 10 if it would change what has been read. *)
Definition sym_lev (s : string) : nat :=
  if mem s [")"; ","; "]"; ":"] then 0
  else match vop_sym s with
       | Some (p, _) => 4 + p
       | None =>
           match cmp_sym s with
           | Some _ => 4
           | None => if String.eqb s "[" then 9 else 10
           end
       end.
Definition kw_lev (k : string) : nat :=
  if String.eqb k "OR" then 1
  else if String.eqb k "AND" then 2
  else if mem k ["IS"; "BETWEEN"; "IN"; "LIKE"; "NOT"; "ESCAPE"] then 4
  else if String.eqb k "AT" then 8
  else if mem k ["OVER"; "FILTER"; "IGNORE"; "RESPECT"; "UESCAPE"; "TO"] then 10
  else 0.
Definition lev (ts : list token) : nat :=
  match ts with
  | TSym s :: _ => sym_lev s
  | TKw k _ :: _ => kw_lev k
  | (TString _ | TUniString _) :: _ => 10
  | _ => 0
  end.

Ltac ifs := repeat match goal with
  | H : context [if ?b then _ else _] |- _ => destruct b eqn:?
  | |- context [if ?b then _ else _] => destruct b eqn:?
  end.

Lemma vop_lev s p op : vop_sym s = Some (p, op) -> sym_lev s = 4 + p /\ 1 <= p <= 3.
Proof.
  unfold vop_sym. intro H.
  repeat (match type of H with
          | (if String.eqb ?a ?b then _ else _) = _ => destruct (String.eqb_spec a b) as [->|]
          end; [injection H as <- <-; split; [reflexivity | lia]|]).
  discriminate.
Qed.
Lemma cmp_lev s op : cmp_sym s = Some op -> sym_lev s = 4.
Proof.
  unfold cmp_sym. intro H.
  repeat (match type of H with
          | (if String.eqb ?a ?b then _ else _) = _ => destruct (String.eqb_spec a b) as [->|]
          end; [reflexivity|]).
  discriminate.
Qed.

(** * Loops *)
Lemma eqb_kw_lev k w l : String.eqb k w = true -> kw_lev w = l -> kw_lev k = l.
Proof. intros H%String.eqb_eq <-; now subst. Qed.

Lemma post_stop pv k acc rest : lev rest <= 8 -> 0 < k -> post_loop pv k acc rest = Ok (acc, rest).
Proof.
  intros H Hk. destruct k as [|k]; [lia|]. cbn [post_loop].
  destruct rest as [|[ | | | | | | | | | | |s| ] r]; try reflexivity.
  cbn [lev] in H. destruct (String.eqb_spec s "[") as [->|]; [exfalso; revert H; vm_compute; lia|].
  destruct (String.eqb_spec s ".") as [->|]; [exfalso; revert H; vm_compute; lia|]. reflexivity.
Qed.
Lemma at_zone_lev ts : at_zone ts = true -> lev ts = 8.
Proof.
  destruct ts as [|[a| | | | | | | | | | | | ] [|[b| | | | | | | | | | | | ] [|[c| | | | | | | | | | | | ] r]]];
    try discriminate.
  cbn [at_zone lev]. intro H. apply andb_true_iff in H as [H _]. apply andb_true_iff in H as [H _].
  apply String.eqb_eq in H as ->. reflexivity.
Qed.
Lemma value_stop pv k lvl acc rest :
  lev rest <= 4 \/ (lev rest < 4 + lvl /\ lev rest <= 7) -> 0 < k ->
  value_loop pv k lvl acc rest = Ok (acc, rest).
Proof.
  intros H Hk. destruct k as [|k]; [lia|]. cbn [value_loop].
  assert (Hz : at_zone rest = false).
  { destruct (at_zone rest) eqn:E; [|reflexivity]. apply at_zone_lev in E. lia. }
  rewrite Hz. destruct rest as [|[ | | | | | | | | | | |s| ] r]; try reflexivity.
  cbn [lev] in H. destruct (vop_sym s) as [[p op]|] eqn:E; [|reflexivity].
  apply vop_lev in E as [E Hp]. destruct (Nat.leb_spec lvl p); [lia | reflexivity].
Qed.
Lemma bool_stop pb k lvl acc rest :
  lev rest = 0 \/ (lev rest < lvl) \/ 2 < lev rest -> 0 < k ->
  bool_loop pb k lvl acc rest = Ok (acc, rest).
Proof.
  intros H Hk. destruct k as [|k]; [lia|]. cbn [bool_loop].
  destruct rest as [|[w| | | | | | | | | | | | ] r]; try reflexivity. cbn [lev] in H.
  destruct (String.eqb_spec w "AND") as [->|N1].
  - change (kw_lev "AND") with 2 in H. destruct (Nat.leb_spec lvl 2); [lia|]. reflexivity.
  - destruct (String.eqb_spec w "OR") as [->|N2]; [|reflexivity].
    change (kw_lev "OR") with 1 in H. destruct (Nat.leb_spec lvl 1); [lia|]. reflexivity.
Qed.
Lemma predicate_stop pe pv pq left rest : lev rest <= 2 -> predicate pe pv pq left rest = Ok (left, rest).
Proof.
  intro H. unfold predicate. destruct rest as [|[k| | | | | | | | | | |s| ] r]; try reflexivity; cbn [lev] in H.
  - unfold is_tail_kw, mem. cbn [existsb].
    destruct (String.eqb_spec k "NOT") as [->|]; [exfalso; revert H; vm_compute; lia|].
    destruct (String.eqb_spec k "IS") as [->|]; [exfalso; revert H; vm_compute; lia|].
    destruct (String.eqb_spec k "BETWEEN") as [->|]; [exfalso; revert H; vm_compute; lia|].
    destruct (String.eqb_spec k "IN") as [->|]; [exfalso; revert H; vm_compute; lia|].
    destruct (String.eqb_spec k "LIKE") as [->|]; [exfalso; revert H; vm_compute; lia|].
    reflexivity.
  - destruct (cmp_sym s) as [op|] eqn:E; [|reflexivity]. apply cmp_lev in E. lia.
Qed.

(** * How expressions start *)
Definition starter (t : token) : bool :=
  match t with
  | TSym s => mem s ["("; "-"; "+"]
  | TKw k _ => starts_expr [TKw k k] && negb (mem k ["DISTINCT"; "ALL"; "ORDER"; "WHEN"; "UNBOUNDED"; "CURRENT"; "SELECT";
                            "WITH"; "TABLE"; "VALUES"; "ROLLUP"; "CUBE"; "GROUPING"; "AS"; "PARTITION";
                            "RECURSIVE"; "RANGE"; "ROWS"; "GROUPS"])%bool
  | TId _ | TQuoted _ | TString _ | TInt _ | TDec _ => true
  | _ => false
  end.
(** The second token does not end a list, nor is it the dot of a star. *)
Definition second (ts : list token) : bool :=
  match ts with
  | _ :: TSym s :: r =>
      (negb (mem s [","; ")"])
       && (negb (String.eqb s ".") || match r with
                                     | TSym a :: _ => negb (String.eqb a "*")
                                     | _ :: _ => true
                                     | [] => false
                                     end))%bool
  | _ => true
  end.
Definition first_not (k : string) (ts : list token) : bool :=
  match ts with TKw w _ :: _ => negb (String.eqb w k) | _ => true end.
(** No sign, except that of a number. *)
Definition unsigned (ts : list token) : bool :=
  match ts with
  | TSym s :: r =>
      (negb (String.eqb s "+")
       && (negb (String.eqb s "-") || match r with t :: _ => is_number t | [] => false end))%bool
  | _ => true
  end.
Record shape (c : nat) (ts : list token) : Prop := {
  sh_first : match ts with t :: _ => starter t = true | [] => False end;
  sh_second : second ts = true;
  sh_not : 4 <= c -> first_not "NOT" ts = true;
  sh_sign : 9 <= c -> unsigned ts = true }.
(** The same for a text that certainly is not the start of a query. *)
Definition start (c : nat) (ts : list token) : Prop :=
  shape c ts /\ forall k, query_ahead (ts ++ k) = false.

(** What may come next inside an expression: an operator. *)
Definition joint (ts : list token) : bool :=
  match ts with
  | TSym s :: _ => negb (mem s [","; ")"; "."])
  | TKw k _ :: _ => negb (Nat.eqb (kw_lev k) 0)
  | _ => false
  end.

Lemma shape_app c c' ts k :
  shape c ts -> c' <= c -> (9 <= c' -> 9 <= c) -> joint k = true -> shape c' (ts ++ k).
Proof.
  intros [H1 H2 H4 H5] Hc H9 Hj. destruct ts as [|t r]; [contradiction|]. constructor.
  - exact H1.
  - destruct r as [|u r]; cbn [app second].
    + destruct k as [|[ | | | | | | | | | | |s| ] k]; try reflexivity. cbn [joint mem existsb] in Hj.
      rewrite !negb_orb in Hj. rewrite !andb_true_iff in Hj. destruct Hj as (J1 & J2 & J3 & _).
      cbn [mem existsb]. rewrite J3. rewrite !negb_orb, J1, J2. reflexivity.
    + destruct u; try reflexivity. cbn [second] in H2. apply andb_true_iff in H2 as [A B]. rewrite A.
      destruct (negb (String.eqb s ".")); [reflexivity|]. cbn [orb] in B |- *.
      destruct r as [|v r]; [discriminate B | exact B].
  - intro L. apply H4. lia.
  - intro L. specialize (H5 (H9 L)). cbn [app]. destruct t; try reflexivity.
    cbn [unsigned] in *. apply andb_true_iff in H5 as [A B]. rewrite A.
    destruct (negb (String.eqb s "-")); [reflexivity|]. cbn [orb] in *.
    destruct r as [|v r]; [discriminate B | exact B].
Qed.

Lemma shape_weak c c' ts : shape c ts -> c' <= c -> (9 <= c' -> 9 <= c) -> shape c' ts.
Proof. intros [H1 H2 H4 H5] L L9. constructor; auto. intro. apply H4. lia. Qed.

Lemma shape_paren c c' ts : shape c ts -> shape c' (paren ts).
Proof.
  intros [H1 H2 H4 H5]. unfold paren. constructor; try reflexivity.
  - destruct ts as [|t r]; [contradiction|]. cbn [app second].
    destruct t as [ | | | | | | | | | | |s| ]; try reflexivity.
    cbn [starter] in H1. cbn [mem existsb] in H1. rewrite !orb_true_iff, !String.eqb_eq in H1.
    destruct H1 as [->|[->|[->|H1]]]; try reflexivity. discriminate.
Qed.

(** * Queries in parentheses

    After a parenthesis a query is tried first, if the tokens may start one.
    [unasked] says that this comes to nothing. *)
Definition unasked (en : env) (n : nat) (ts : list token) : Prop :=
  query_ahead ts = false
  \/ p_query en n ts = Err SyntaxErr
  \/ exists q r, p_query en n ts = Ok (q, r) /\ eat_sym ")" r = None.
(** What ends a query, unlike UNION, ORDER BY and so on. *)
Definition query_end (k : list token) : bool :=
  match k with
  | TKw w _ :: _ => negb (mem w ["UNION"; "INTERSECT"; "EXCEPT"; "ORDER"; "OFFSET"; "LIMIT"; "FETCH"])
  | _ => true
  end.
(** No query is read from [ts] in parentheses; category 10 is a query in
    parentheses, where this depends on what follows. *)
Definition asks (en : env) (c : nat) (ts : list token) : Prop :=
  forall n k, 8 * length ts + 8 <= n -> query_end k = true -> c <= 9 \/ eat_sym ")" k = None ->
    unasked en n (ts ++ k).
Definition placed (en : env) (c : nat) (ts : list token) : Prop := shape c ts /\ asks en c ts.
Lemma start_asks en c c' ts : start c ts -> asks en c' ts.
Proof. intros [_ H] n k _ _ _. left. apply H. Qed.
Lemma joint_end ts k : joint ts = true -> query_end (ts ++ k) = true /\ eat_sym ")" (ts ++ k) = None.
Proof.
  destruct ts as [|[w| | | | | | | | | | |s| ] ts]; try discriminate; cbn [joint app query_end eat_sym].
  - intro H. split; [|reflexivity]. unfold mem. cbn [existsb].
    repeat match goal with
    | |- context [String.eqb w ?x] => destruct (String.eqb_spec w x) as [->|]; [discriminate H|]
    end. reflexivity.
  - intro H. split; [reflexivity|]. cbn [mem existsb] in H.
    destruct (String.eqb_spec s ")") as [->|]; [discriminate H | reflexivity].
Qed.
Lemma asks_app en c c' ts k : asks en c ts -> joint k = true -> asks en c' (ts ++ k).
Proof.
  intros H J n k' Hn _ _. rewrite app_length in Hn. rewrite <- app_assoc.
  destruct (joint_end k k' J). apply H; auto. lia.
Qed.
Lemma placed_app en c c' ts k : shape c ts -> asks en c ts -> c' <= c -> (9 <= c' -> 9 <= c) -> joint k = true ->
  placed en c' (ts ++ k).
Proof. intros S A H H9 J. split; [now apply (shape_app c) | now apply (asks_app en c)]. Qed.
Lemma start_placed en c ts : start c ts -> placed en c ts.
Proof. intro H. split; [apply H | eapply start_asks; eauto]. Qed.
Fixpoint opening (ts : list token) : nat :=
  match ts with TSym s :: r => if String.eqb s "(" then S (opening r) else 0 | _ => 0 end.
Lemma opening_app ts k : opening (ts ++ TSym ")" :: k) <= length ts.
Proof.
  induction ts as [|t ts IH]; [reflexivity|]. cbn [app opening length]. destruct t; try lia.
  destruct (String.eqb s "("); lia.
Qed.
Lemma no_query_read en ts : forall n, query_ahead ts = false -> 2 * opening ts + 3 <= n ->
  p_query_no_with en n ts = Err SyntaxErr.
Proof.
  induction ts as [|t ts IH]; intros n Q Hn.
  - do 2 (destruct n as [|n]; [lia|]). reflexivity.
  - do 2 (destruct n as [|n]; [lia|]).
    change (p_query_no_with en (S (S n)) (t :: ts))
      with (qnw_body (term_body (p_term en n) (p_query_primary (p_bool en n 0) (p_primary en n) (p_relation en n)
                              (p_query_no_with en n)) 0) (p_bool en (S n) 0) (t :: ts)).
    unfold qnw_body, term_body.
    destruct t as [w| | | | | | | | | | |s| ]; try reflexivity.
    + cbn [query_ahead mem existsb] in Q. rewrite !orb_false_iff in Q. destruct Q as (Q1 & Q2 & Q3 & Q4 & _).
      cbn [p_query_primary]. now rewrite Q1, Q3, Q4.
    + cbn [query_ahead opening] in *. cbn [p_query_primary]. destruct (String.eqb s "("); [|reflexivity].
      rewrite IH; [reflexivity | exact Q | lia].
Qed.
Lemma with_unread en n x r : 2 <= n -> p_query_no_with en n (TKw "WITH" x :: r) = Err SyntaxErr.
Proof. intro H. do 2 (destruct n as [|n]; [lia|]). reflexivity. Qed.
Lemma unasked_unread en n ts : unasked en (S n) ts -> 2 * opening ts + 3 <= n ->
  p_query_no_with en n ts = Err SyntaxErr
  \/ exists q r, p_query_no_with en n ts = Ok (q, r) /\ eat_sym ")" r = None.
Proof.
  intros U Hn. destruct (query_ahead ts) eqn:Q; [|left; now apply no_query_read].
  destruct U as [U|U]; [congruence|].
  change (p_query en (S n) ts) with (query_body (p_query_no_with en n) (p_query en n) ts) in U.
  unfold query_body in U. destruct (eat_kw "WITH" ts) as [r|] eqn:W.
  - left. destruct ts as [|[w| | | | | | | | | | | | ] ts]; try discriminate W. cbn [eat_kw] in W.
    destruct (String.eqb_spec w "WITH") as [->|]; [|discriminate]. apply with_unread. lia.
  - destruct (p_query_no_with en n ts) as [[q r]|e]; cbn [bind] in U.
    + right. destruct U as [U|(q' & r' & U & E)]; [discriminate|]. injection U as _ <-. eauto.
    + left. destruct U as [U|(q' & r' & U & E)]; [exact U | discriminate].
Qed.
Lemma unasked_paren en n ts k : unasked en (S n) (ts ++ TSym ")" :: k) ->
  2 * length ts + 3 <= n ->
  unasked en (S (S (S n))) (paren ts ++ k).
Proof.
  intros U Hn. unfold paren. cbn [app]. rewrite <- app_assoc. cbn [app]. right. left.
  change (p_query en (S (S (S n))) (TSym "(" :: ts ++ TSym ")" :: k))
    with (query_body (qnw_body (term_body (p_term en n)
           (p_query_primary (p_bool en n 0) (p_primary en n) (p_relation en n) (p_query_no_with en n)) 0)
           (p_bool en (S n) 0)) (p_query en (S (S n))) (TSym "(" :: ts ++ TSym ")" :: k)).
  unfold query_body. cbn [eat_kw]. unfold qnw_body, term_body. cbn [p_query_primary String.eqb Ascii.eqb Bool.eqb].
  destruct (unasked_unread _ _ _ U) as [->|(q & r & -> & E)];
    [pose proof (opening_app ts k); lia | reflexivity |].
  cbn [bind]. rewrite E. reflexivity.
Qed.

(** * Parsers of an expression and of a value *)

(** [p] reads [e] from [ts] if something that ends any expression follows. *)
Definition Rd (p : parser) (e : node) (ts : list token) : Prop :=
  forall rest, lev rest = 0 -> p (ts ++ rest) = Ok (Ok e, rest).
(** The same for a value, which may be followed by a predicate. *)
Definition Rdv (p : parser) (e : node) (ts : list token) : Prop :=
  forall rest, lev rest <= 4 -> p (ts ++ rest) = Ok (Ok e, rest).

Lemma eat_sym_same s r : eat_sym s (TSym s :: r) = Some r.
Proof. cbn. now rewrite String.eqb_refl. Qed.
Lemma eat_kw_same k r : eat_kw k (K k :: r) = Some r.
Proof. cbn. now rewrite String.eqb_refl. Qed.
Lemma eat_comma_lev r s : lev r <> 0 -> mem s [")"; ","; "]"; ":"] = true -> eat_sym s r = None.
Proof.
  intros H Hs. destruct r as [|[ | | | | | | | | | | |a| ] r]; try reflexivity. cbn [eat_sym].
  destruct (String.eqb_spec a s) as [->|]; [|reflexivity]. cbn [lev] in H. unfold sym_lev in H.
  rewrite Hs in H. congruence.
Qed.

(** * Lists *)
Lemma commas_cons x y l : commas (x :: y :: l) = x ++ TSym "," :: commas (y :: l).
Proof. unfold commas. now rewrite tjoin_cons2. Qed.
Lemma commas_length tss : length tss <= S (length (commas tss)).
Proof.
  induction tss as [|x [|y l] IH]; [cbn; lia | cbn; lia |]. rewrite commas_cons, app_length.
  cbn [length] in *. lia.
Qed.
Lemma commas_length_in tss ts : In ts tss -> length ts <= length (commas tss).
Proof.
  induction tss as [|x [|y l] IH]; [intros [] | intros [->|[]]; reflexivity |].
  rewrite commas_cons, app_length. intros [->|H]; [cbn; lia|]. specialize (IH H). cbn [length] in *. lia.
Qed.

(** [p] reads [a] from [ts] before a comma and before [rest]. *)
Definition item {A} (p : list token -> pres (result A)) (rest : list token) (a : A) (ts : list token) : Prop :=
  forall r, r = rest \/ (exists r', r = TSym "," :: r') -> p (ts ++ r) = Ok (Ok a, r).
Lemma p_sep_ok {A} (p : list token -> pres (result A)) rest l tss : forall k,
  Forall2 (item p rest) l tss -> l <> [] -> eat_sym "," rest = None -> length tss <= k ->
  p_sep p k (commas tss ++ rest) = Ok (Ok l, rest).
Proof.
  intros k H. revert k. induction H as [|a ts l tss Ha Hl IH]; intros k N E Hk; [congruence|].
  destruct k as [|k]; [cbn in Hk; lia|]. destruct Hl as [|b ts' l tss Hb Hl].
  - cbn [p_sep]. change (commas [ts]) with ts. rewrite (Ha rest (or_introl eq_refl)).
    cbn [bind]. rewrite E. reflexivity.
  - rewrite commas_cons, <- app_assoc. cbn [app p_sep].
    rewrite (Ha _ (or_intror (ex_intro _ _ eq_refl))). cbn [bind]. rewrite eat_sym_same.
    change (p_sep p k) with (p_sep p k). rewrite IH; [reflexivity | discriminate | exact E | cbn in *; lia].
Qed.
Lemma sep_ok {A} (p : list token -> pres (result A)) rest l tss :
  Forall2 (item p rest) l tss -> l <> [] -> eat_sym "," rest = None ->
  sep p (commas tss ++ rest) = Ok (Ok l, rest).
Proof.
  intros H N E. unfold sep. apply p_sep_ok; auto. rewrite app_length.
  pose proof (commas_length tss). lia.
Qed.
Lemma Rd_item p rest e ts : lev rest = 0 -> Rd p e ts -> item p rest e ts.
Proof. intros H R r [->|[r' ->]]; apply R; auto. Qed.
Lemma exprs_ok p rest l tss :
  lev rest = 0 -> Forall2 (Rd p) l tss -> l <> [] -> eat_sym "," rest = None ->
  sep p (commas tss ++ rest) = Ok (Ok l, rest).
Proof.
  intros Hl H N E. apply sep_ok; auto. clear N. induction H; constructor; auto. now apply Rd_item.
Qed.
