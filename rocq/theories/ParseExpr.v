(** Facts about the expression parser, part 3: the readings of expressions are
    closed under the constructions of the grammar. *)
From Coq Require Import String Ascii List ZArith NArith Bool Lia Arith.
From Verif Require Import PyStr StrFacts Types Inference Lexer LexFacts TypeParser TypeRoundTrip
  Functions Ast Sql Parser Tokens ParseBase ParseParts.
Import ListNotations.
Open Scope nat_scope.
Open Scope string_scope.
Open Scope list_scope.

(** * Categories

    0 lambda, 1 OR, 2 AND, 3 NOT, 4 predicates, 5 to 7 binary operators, 8
    signs, 9 primary expressions, 10 queries in parentheses.  The level at which a rule may be entered to
    read an expression of a category. *)
Definition vlvl (c : nat) : nat := Nat.min (c - 4) 4.
Definition blvl (c : nat) : nat := Nat.min c 3.

(** Reading the tokens [ts] of category [c] gives [e], whatever follows, and
    leaves the rule's loop over the operators that follow. *)
Record Ex (en : env) (c : nat) (e : node) (ts : list token) : Prop := {
  ex_shape : shape c ts;
  ex_asks : asks en c ts;
  ex_typed : typed e;
  ex_prim : 9 <= c -> forall n rest, 8 * length ts + 1 <= n -> lev rest <= 9 ->
    exists k, length rest < k
      /\ p_primary en (S n) (ts ++ rest) = post_loop (p_value en n 0) k (Ok e) rest;
  ex_value : 5 <= c -> forall n lvl rest, 8 * length ts + 2 <= n -> lvl <= vlvl c ->
    lev rest <= Nat.min c 7 ->
    exists k, length rest < k
      /\ p_value en (S n) lvl (ts ++ rest) = value_loop (p_value en n) k lvl (Ok e) rest;
  ex_bool : forall n lvl rest, 8 * length ts + 3 <= n -> lvl <= blvl c -> lev rest <= Nat.min c 2 ->
    exists k, length rest < k
      /\ p_bool en (S n) lvl (ts ++ rest) = bool_loop (p_bool en n) k lvl (Ok e) rest }.

Lemma typed_mk e : typed e -> mk e = Ok e.
Proof.
  intros [t H]. unfold mk. destruct (check e); [reflexivity|].
  destruct e; cbn in H; discriminate.
Qed.

(** ** From primary expressions to values to expressions *)
Lemma value_bool en c e ts :
  5 <= c -> shape c ts ->
  (forall n lvl rest, 8 * length ts + 2 <= n -> lvl <= vlvl c -> lev rest <= Nat.min c 7 ->
     exists k, length rest < k
       /\ p_value en (S n) lvl (ts ++ rest) = value_loop (p_value en n) k lvl (Ok e) rest) ->
  forall n lvl rest, 8 * length ts + 3 <= n -> lvl <= blvl c -> lev rest <= Nat.min c 2 ->
    exists k, length rest < k
      /\ p_bool en (S n) lvl (ts ++ rest) = bool_loop (p_bool en n) k lvl (Ok e) rest.
Proof.
  intros Hc Sh V n lvl rest Hn _ Hr.
  change (p_bool en (S n) lvl (ts ++ rest))
    with (bool_body (p_bool en n) (p_value en n 0) (p_query en n) lvl (ts ++ rest)).
  unfold bool_body.
  assert (eat_kw "NOT" (ts ++ rest) = None) as ->.
  { pose proof (sh_not _ _ Sh ltac:(lia)) as N. destruct ts as [|t ts]; [destruct (sh_first _ _ Sh)|].
    destruct t as [w| | | | | | | | | | | | ]; try reflexivity. cbn [app eat_kw first_not] in *.
    destruct (String.eqb w "NOT"); [discriminate | reflexivity]. }
  destruct n as [|n]; [lia|].
  destruct (V n 0 rest) as (k & Hk & ->); [lia | unfold vlvl; lia | lia |].
  rewrite value_stop by lia. cbn [bind]. rewrite predicate_stop by lia. cbn [bind].
  exists (S (length rest)). split; [lia | reflexivity].
Qed.
Lemma mk_value en c e ts :
  5 <= c <= 8 -> placed en c ts -> typed e ->
  (forall n lvl rest, 8 * length ts + 2 <= n -> lvl <= vlvl c -> lev rest <= Nat.min c 7 ->
     exists k, length rest < k
       /\ p_value en (S n) lvl (ts ++ rest) = value_loop (p_value en n) k lvl (Ok e) rest) ->
  Ex en c e ts.
Proof.
  intros Hc [Sh As] T V. constructor; auto; [lia|]. apply value_bool; auto. lia.
Qed.
Lemma prim_value en c e ts :
  9 <= c -> shape c ts ->
  (forall n rest, 8 * length ts + 1 <= n -> lev rest <= 9 ->
     exists k, length rest < k
       /\ p_primary en (S n) (ts ++ rest) = post_loop (p_value en n 0) k (Ok e) rest) ->
  forall n lvl rest, 8 * length ts + 2 <= n -> lvl <= vlvl c -> lev rest <= Nat.min c 7 ->
    exists k, length rest < k
      /\ p_value en (S n) lvl (ts ++ rest) = value_loop (p_value en n) k lvl (Ok e) rest.
Proof.
  intros Hc Sh P. intros n lvl rest Hn _ Hr.
    change (p_value en (S n) lvl (ts ++ rest))
      with (value_body (p_value en n) (p_primary en n) lvl (ts ++ rest)).
    assert (B : value_body (p_value en n) (p_primary en n) lvl (ts ++ rest)
      = let* (a, r) := p_primary en n (ts ++ rest) in value_loop (p_value en n) (S (length r)) lvl a r).
    { unfold value_body. pose proof (sh_sign _ _ Sh ltac:(lia)) as U.
      destruct ts as [|t ts]; [destruct (sh_first _ _ Sh)|]. destruct t as [ | | | | | | | | | | |s| ]; try reflexivity.
      cbn [app]. cbn [unsigned] in U. apply andb_true_iff in U as [U1 U2].
      destruct (String.eqb s "-"); cbn [negb orb] in U2.
      - destruct ts as [|t ts]; [discriminate|]. cbn [app]. now rewrite U2.
      - destruct (String.eqb s "+"); [discriminate | reflexivity]. }
    rewrite B. destruct n as [|n]; [lia|].
    destruct (P n rest) as (k & Hk & ->); [lia | lia|].
    rewrite post_stop by lia. cbn [bind]. exists (S (length rest)). split; [lia | reflexivity].
Qed.
Lemma mk_prim en c e ts :
  9 <= c -> placed en c ts -> typed e ->
  (forall n rest, 8 * length ts + 1 <= n -> lev rest <= 9 ->
     exists k, length rest < k
       /\ p_primary en (S n) (ts ++ rest) = post_loop (p_value en n 0) k (Ok e) rest) ->
  Ex en c e ts.
Proof.
  intros Hc [Sh As] T P. pose proof (prim_value en c e ts Hc Sh P) as V.
  constructor; auto. apply value_bool; auto. lia.
Qed.
Lemma mk_placed en c e ts :
  9 <= c -> placed en c ts -> typed e ->
  (forall n rest, 8 * length ts + 1 <= n -> lev rest <= 9 ->
     prim_head en (p_bool en n 0) (p_value en n 0) (p_query en n) (ts ++ rest) = Ok (Ok e, rest)) ->
  Ex en c e ts.
Proof.
  intros Hc Sh T P. apply mk_prim; auto. intros n rest Hn Hr.
  exists (S (length rest)). split; [lia|].
  change (p_primary en (S n) (ts ++ rest))
    with (prim_body en (p_bool en n 0) (p_value en n 0) (p_query en n) (ts ++ rest)).
  unfold prim_body. rewrite P by assumption. reflexivity.
Qed.
Lemma mk_head en e ts :
  start 9 ts -> typed e ->
  (forall n rest, 8 * length ts + 1 <= n -> lev rest <= 9 ->
     prim_head en (p_bool en n 0) (p_value en n 0) (p_query en n) (ts ++ rest) = Ok (Ok e, rest)) ->
  Ex en 9 e ts.
Proof. intros S. apply mk_placed; [lia | now apply start_placed]. Qed.
(** A lambda is a primary expression that takes all that follows. *)
Lemma mk_lambda en e ts :
  placed en 9 ts -> typed e ->
  (forall n rest, 8 * length ts + 1 <= n -> lev rest = 0 ->
     prim_head en (p_bool en n 0) (p_value en n 0) (p_query en n) (ts ++ rest) = Ok (Ok e, rest)) ->
  Ex en 0 e ts.
Proof.
  intros [Sh As] T P. constructor; auto; try (intros; lia).
  - apply (shape_weak 9); [exact Sh | lia | lia].
  - intros n k Hn Hk _. apply As; auto.
  - intros n lvl rest Hn Hl Hr.
    change (p_bool en (S n) lvl (ts ++ rest))
      with (bool_body (p_bool en n) (p_value en n 0) (p_query en n) lvl (ts ++ rest)).
    unfold bool_body.
    assert (eat_kw "NOT" (ts ++ rest) = None) as ->.
    { pose proof (sh_not _ _ Sh ltac:(lia)) as N. destruct ts as [|t ts]; [destruct (sh_first _ _ Sh)|].
      destruct t as [w| | | | | | | | | | | | ]; try reflexivity. cbn [app eat_kw first_not] in *.
      destruct (String.eqb w "NOT"); [discriminate | reflexivity]. }
    destruct n as [|n]; [lia|].
    change (p_value en (S n) 0 (ts ++ rest))
      with (value_body (p_value en n) (p_primary en n) 0 (ts ++ rest)).
    assert (B : value_body (p_value en n) (p_primary en n) 0 (ts ++ rest)
      = let* (a, r) := p_primary en n (ts ++ rest) in value_loop (p_value en n) (S (length r)) 0 a r).
    { unfold value_body. pose proof (sh_sign _ _ Sh ltac:(lia)) as U.
      destruct ts as [|t ts]; [destruct (sh_first _ _ Sh)|]. destruct t as [ | | | | | | | | | | |s| ]; try reflexivity.
      cbn [app]. cbn [unsigned] in U. apply andb_true_iff in U as [U1 U2].
      destruct (String.eqb s "-"); cbn [negb orb] in U2.
      - destruct ts as [|t ts]; [discriminate|]. cbn [app]. now rewrite U2.
      - destruct (String.eqb s "+"); [discriminate | reflexivity]. }
    rewrite B. destruct n as [|n]; [lia|].
    change (p_primary en (S n) (ts ++ rest))
      with (prim_body en (p_bool en n 0) (p_value en n 0) (p_query en n) (ts ++ rest)).
    unfold prim_body. rewrite P by lia. cbn [bind]. rewrite post_stop by lia. cbn [bind].
    rewrite value_stop by lia. cbn [bind]. rewrite predicate_stop by lia. cbn [bind].
    exists (S (length rest)). split; [lia | reflexivity].
Qed.

(** ** Uses *)
Lemma ex_value_at en c e ts n lvl rest :
  Ex en c e ts -> 5 <= c -> 8 * length ts + 3 <= n -> lvl <= vlvl c -> lev rest <= Nat.min c 7 ->
  lev rest <= 4 \/ lev rest < 4 + lvl ->
  p_value en n lvl (ts ++ rest) = Ok (Ok e, rest).
Proof.
  intros E Hc Hn Hl Hr Hs. destruct n as [|n]; [lia|].
  destruct (ex_value _ _ _ _ E Hc n lvl rest) as (k & Hk & ->); [lia | lia | lia |].
  apply value_stop; lia.
Qed.
Lemma ex_bool_at en c e ts n lvl rest :
  Ex en c e ts -> 8 * length ts + 4 <= n -> lvl <= blvl c -> lev rest <= Nat.min c 2 ->
  lev rest = 0 \/ lev rest < lvl ->
  p_bool en n lvl (ts ++ rest) = Ok (Ok e, rest).
Proof.
  intros E Hn Hl Hr Hs. destruct n as [|n]; [lia|].
  destruct (ex_bool _ _ _ _ E n lvl rest) as (k & Hk & ->); [lia | lia | lia |].
  apply bool_stop; lia.
Qed.
Lemma ex_rdv en c e ts n : Ex en c e ts -> 5 <= c -> 8 * length ts + 3 <= n -> Rdv (p_value en n 0) e ts.
Proof. intros E Hc Hn rest Hr. eapply ex_value_at; eauto; unfold vlvl; lia. Qed.
Lemma ex_rd en c e ts n : Ex en c e ts -> 8 * length ts + 4 <= n -> Rd (p_bool en n 0) e ts.
Proof. intros E Hn rest Hr. eapply ex_bool_at; eauto; lia. Qed.
(** An expression that is read as a certain value. *)
Definition reads_as (en : env) (e : node) (t : list token) : Prop :=
  forall n, 8 * length t + 4 <= n -> Rd (p_bool en n 0) e t.
Lemma ex_rx en c e ts n : Ex en c e ts -> 8 * length ts + 4 <= n -> Rx (p_bool en n 0) e ts.
Proof.
  intros E Hn. constructor; [eapply ex_rd; eauto|].
  apply (shape_weak c); [apply E | lia | lia].
Qed.
Lemma ex_rt en c e ts n : Ex en c e ts -> 8 * length ts + 4 <= n -> Rt (p_bool en n 0) e ts.
Proof. intros E Hn. split; [eapply ex_rx; eauto | apply E]. Qed.
Lemma ex_rxs en l tss n :
  Forall2 (fun e ts => exists c, Ex en c e ts) l tss -> 8 * length (commas tss) + 4 <= n ->
  Forall2 (Rx (p_bool en n 0)) l tss.
Proof.
  intros H Hn. assert (forall ts, In ts tss -> 8 * length ts + 4 <= n) as Hin.
  { intros ts I. apply commas_length_in in I. lia. }
  clear Hn. induction H as [|e ts l tss [c E] H IH]; constructor.
  - eapply ex_rx; eauto. apply Hin. now left.
  - apply IH. intros; apply Hin. now right.
Qed.

(** * Shapes *)
Lemma second_starter t ts r : match ts with u :: _ => starter u = true | [] => False end ->
  second (t :: ts ++ r) = true.
Proof.
  destruct ts as [|u ts]; [contradiction|]. intro H. destruct u as [ | | | | | | | | | | |s| ]; try reflexivity.
  cbn [starter mem existsb] in H. rewrite !orb_true_iff, !String.eqb_eq in H.
  destruct H as [->|[->|[->|H]]]; try reflexivity. discriminate.
Qed.
Lemma shape_kw c k ts :
  starter (K k) = true -> k <> "NOT" -> mem k ["SELECT"; "WITH"; "TABLE"; "VALUES"] = false ->
  second (K k :: ts) = true -> start c (K k :: ts).
Proof.
  intros S N Q T. split; [|intro; exact Q]. constructor; auto. intros _. cbn [first_not K].
  destruct (String.eqb_spec k "NOT"); [congruence | reflexivity].
Qed.
Lemma shape_tok c t ts :
  match t with TId _ | TQuoted _ | TString _ | TInt _ | TDec _ => true | _ => false end = true ->
  second (t :: ts) = true -> start c (t :: ts).
Proof. intros H S. destruct t; try discriminate; (split; [constructor; auto | reflexivity]). Qed.

(** * Closure *)

(** ** Operators on values *)
Lemma Ex_vop en p op s cl cr l tl r tr :
  vop_sym s = Some (p, VArith op) -> Ex en cl l tl -> Ex en cr r tr ->
  p + 4 <= cl -> p + 5 <= cr -> typed (NBin op l r) ->
  Ex en (p + 4) (NBin op l r) (tl ++ TSym s :: tr).
Proof.
  intros Hs El Er Hl Hr T. pose proof (vop_lev _ _ _ Hs) as [Hlev Hp].
  apply mk_value; [lia | | exact T |].
  - apply (placed_app en cl); [apply El | apply El | lia | lia |]. cbn [joint].
    unfold mem. cbn [existsb].
    destruct (String.eqb_spec s ",") as [->|]; [discriminate Hs|].
    destruct (String.eqb_spec s ")") as [->|]; [discriminate Hs|].
    destruct (String.eqb_spec s ".") as [->|]; [discriminate Hs|]. reflexivity.
  - intros n lvl rest Hn Hlv Hrest. rewrite app_length in Hn. cbn [length] in Hn.
    rewrite <- app_assoc. cbn [app].
    destruct (ex_value _ _ _ _ El ltac:(lia) n lvl (TSym s :: tr ++ rest)) as (k & Hk & ->).
    + lia.
    + unfold vlvl in *. lia.
    + cbn [lev]. lia.
    + destruct k as [|k]; [lia|]. cbn [value_loop]. rewrite Hs.
      assert (Nat.leb lvl p = true) as -> by (apply Nat.leb_le; unfold vlvl in Hlv; lia).
      rewrite (ex_value_at en cr r tr); [|exact Er|lia|lia|unfold vlvl; lia|lia|lia].
      cbn [bind]. exists k. split; [cbn [length] in Hk; rewrite app_length in Hk; lia|].
      cbn [v_vop]. unfold v_arith. cbn [bind].
      pose proof (typed_not_none _ (ex_typed _ _ _ _ El)) as Nl.
      destruct l; try congruence; rewrite (typed_mk _ T); reflexivity.
Qed.

(** ** Signs *)
Definition not_number (ts : list token) : bool :=
  match ts with t :: _ => negb (is_number t) | [] => false end.
Lemma shape_sign c s ts : starter (TSym s) = true -> String.eqb s "(" = false -> shape c ts -> start 8 (TSym s :: ts).
Proof.
  intros S P H. split; [constructor; auto; try (intro; lia)|].
  - rewrite <- (app_nil_r ts). apply second_starter. apply H.
  - intro k. cbn [app query_ahead]. now rewrite P.
Qed.
Lemma Ex_neg en c e ts :
  Ex en c e ts -> 8 <= c -> not_number ts = true -> typed (NUn UNeg e) ->
  Ex en 8 (NUn UNeg e) (TSym "-" :: ts).
Proof.
  intros E Hc N T. apply mk_value; [lia | | exact T |].
  - apply start_placed, (shape_sign c); try reflexivity. apply E.
  - intros n lvl rest Hn Hlv Hr. cbn [length] in Hn.
    exists (S (length rest)). split; [lia|]. cbn [app].
    change (p_value en (S n) lvl (TSym "-" :: ts ++ rest))
      with (value_body (p_value en n) (p_primary en n) lvl (TSym "-" :: ts ++ rest)).
    unfold value_body. cbn [String.eqb Ascii.eqb Bool.eqb].
    pose proof (ex_value_at en c e ts n 4 rest E) as V.
    destruct ts as [|t ts]; [discriminate N|]. cbn [app] in *. cbn [not_number] in N.
    apply negb_true_iff in N. rewrite N.
    rewrite V; [|lia|cbn [length] in *; lia|unfold vlvl; lia|lia|lia]. cbn [bind v_unary].
    pose proof (typed_not_none _ (ex_typed _ _ _ _ E)) as Nl.
    destruct e; try congruence; rewrite (typed_mk _ T); reflexivity.
Qed.
Lemma Ex_pos en c e ts :
  Ex en c e ts -> 8 <= c -> typed (NUn UPos e) -> Ex en 8 (NUn UPos e) (TSym "+" :: ts).
Proof.
  intros E Hc T. apply mk_value; [lia | | exact T |].
  - apply start_placed, (shape_sign c); try reflexivity. apply E.
  - intros n lvl rest Hn Hlv Hr. cbn [length] in Hn.
    exists (S (length rest)). split; [lia|]. cbn [app].
    change (p_value en (S n) lvl (TSym "+" :: ts ++ rest))
      with (value_body (p_value en n) (p_primary en n) lvl (TSym "+" :: ts ++ rest)).
    unfold value_body. cbn [String.eqb Ascii.eqb Bool.eqb].
    rewrite (ex_value_at en c e ts n 4 rest E); [|lia|lia|unfold vlvl; lia|lia|lia]. cbn [bind v_unary].
    pose proof (typed_not_none _ (ex_typed _ _ _ _ E)) as Nl.
    destruct e; try congruence; rewrite (typed_mk _ T); reflexivity.
Qed.

(** ** Logic *)
Lemma mk_bool en c e ts :
  c <= 4 -> placed en c ts -> typed e ->
  (forall n lvl rest, 8 * length ts + 3 <= n -> lvl <= blvl c -> lev rest <= Nat.min c 2 ->
     exists k, length rest < k
       /\ p_bool en (S n) lvl (ts ++ rest) = bool_loop (p_bool en n) k lvl (Ok e) rest) ->
  Ex en c e ts.
Proof. intros Hc [Sh As] T B. constructor; auto; intros; lia. Qed.
Lemma Ex_and en cl cr l tl r tr :
  Ex en cl l tl -> Ex en cr r tr -> 2 <= cl -> 3 <= cr -> typed (NBin BAnd l r) ->
  Ex en 2 (NBin BAnd l r) (tl ++ K "AND" :: tr).
Proof.
  intros El Er Hl Hr T. apply mk_bool; [lia | | exact T |].
  - apply (placed_app en cl); [apply El | apply El | lia | lia | reflexivity].
  - intros n lvl rest Hn Hlv Hrest. rewrite app_length in Hn. cbn [length] in Hn.
    rewrite <- app_assoc. cbn [app].
    destruct (ex_bool _ _ _ _ El n lvl (K "AND" :: tr ++ rest)) as (k & Hk & ->).
    + lia.
    + unfold blvl in *. lia.
    + change (lev (K "AND" :: tr ++ rest)) with 2. lia.
    + destruct k as [|k]; [lia|]. cbn [bool_loop K]. cbn [String.eqb Ascii.eqb Bool.eqb andb].
      assert (Nat.leb lvl 2 = true) as -> by (apply Nat.leb_le; unfold blvl in Hlv; lia).
      rewrite (ex_bool_at en cr r tr); [|exact Er|lia|unfold blvl; lia|lia|lia].
      cbn [bind]. exists k. split; [cbn [length] in Hk; rewrite app_length in Hk; lia|].
      unfold v_logic. cbn [bind]. rewrite (typed_mk _ T). reflexivity.
Qed.
Lemma Ex_or en cl cr l tl r tr :
  Ex en cl l tl -> Ex en cr r tr -> 1 <= cl -> 2 <= cr -> typed (NBin BOr l r) ->
  Ex en 1 (NBin BOr l r) (tl ++ K "OR" :: tr).
Proof.
  intros El Er Hl Hr T. apply mk_bool; [lia | | exact T |].
  - apply (placed_app en cl); [apply El | apply El | lia | lia | reflexivity].
  - intros n lvl rest Hn Hlv Hrest. rewrite app_length in Hn. cbn [length] in Hn.
    rewrite <- app_assoc. cbn [app].
    destruct (ex_bool _ _ _ _ El n lvl (K "OR" :: tr ++ rest)) as (k & Hk & ->).
    + lia.
    + unfold blvl in *. lia.
    + change (lev (K "OR" :: tr ++ rest)) with 1. lia.
    + destruct k as [|k]; [lia|]. cbn [bool_loop K]. cbn [String.eqb Ascii.eqb Bool.eqb andb].
      assert (Nat.leb lvl 1 = true) as -> by (apply Nat.leb_le; unfold blvl in Hlv; lia).
      rewrite (ex_bool_at en cr r tr); [|exact Er|lia|unfold blvl; lia|lia|lia].
      cbn [bind]. exists k. split; [cbn [length] in Hk; rewrite app_length in Hk; lia|].
      unfold v_logic. cbn [bind]. rewrite (typed_mk _ T). reflexivity.
Qed.
Lemma Ex_not en c e ts :
  Ex en c e ts -> 3 <= c -> typed (NUn UNot e) -> Ex en 3 (NUn UNot e) (K "NOT" :: ts).
Proof.
  intros E Hc T. apply mk_bool; [lia | | exact T |].
  - apply start_placed. split; [|reflexivity]. constructor; try reflexivity; try (intro; lia).
    rewrite <- (app_nil_r ts). apply second_starter. apply (ex_shape _ _ _ _ E).
  - intros n lvl rest Hn Hlv Hr. cbn [length] in Hn.
    exists (S (length rest)). split; [lia|]. cbn [app].
    change (p_bool en (S n) lvl (K "NOT" :: ts ++ rest))
      with (bool_body (p_bool en n) (p_value en n 0) (p_query en n) lvl (K "NOT" :: ts ++ rest)).
    unfold bool_body. rewrite eat_kw_same.
    rewrite (ex_bool_at en c e ts n 3 rest E); [|lia|unfold blvl; lia|lia|lia]. cbn [bind v_unary].
    pose proof (typed_not_none _ (ex_typed _ _ _ _ E)) as Nl.
    destruct e; try congruence; rewrite (typed_mk _ T); reflexivity.
Qed.

(** ** Predicates *)
Lemma Ex_pred en c l tl e tail :
  Ex en c l tl -> 5 <= c -> typed e -> joint tail = true ->
  (forall r, lev (tail ++ r) <= 4) ->
  (forall n rest, 8 * length tail + 4 <= n -> lev rest <= 2 ->
     predicate (p_bool en n 0) (p_value en n 0) (p_query en n) (Ok l) (tail ++ rest) = Ok (Ok e, rest)) ->
  Ex en 4 e (tl ++ tail).
Proof.
  intros El Hc T J L P. apply mk_bool; [lia | | exact T |].
  - apply (placed_app en c); [apply El | apply El | lia | lia | exact J].
  - intros n lvl rest Hn Hlv Hr. rewrite app_length in Hn.
    exists (S (length rest)). split; [lia|]. rewrite <- app_assoc.
    change (p_bool en (S n) lvl (tl ++ tail ++ rest))
      with (bool_body (p_bool en n) (p_value en n 0) (p_query en n) lvl (tl ++ tail ++ rest)).
    unfold bool_body. pose proof (ex_shape _ _ _ _ El) as Sh.
    assert (eat_kw "NOT" (tl ++ tail ++ rest) = None) as ->.
    { pose proof (sh_not _ _ Sh ltac:(lia)) as N. destruct tl as [|t tl]; [destruct (sh_first _ _ Sh)|].
      destruct t as [w| | | | | | | | | | | | ]; try reflexivity. cbn [app eat_kw first_not] in *.
      destruct (String.eqb w "NOT"); [discriminate | reflexivity]. }
    rewrite (ex_rdv en c l tl n El Hc); [|destruct tl; [destruct (sh_first _ _ Sh)|cbn [length] in *; lia]|apply L].
    cbn [bind]. rewrite P; [reflexivity | | lia].
    destruct tl; [destruct (sh_first _ _ Sh)|cbn [length] in *; lia].
Qed.

Definition cmp_text (op : binop) : option string :=
  match op with
  | BEq => Some "=" | BNe => Some "<>" | BLt => Some "<" | BLe => Some "<=" | BGt => Some ">"
  | BGe => Some ">=" | _ => None
  end.
Lemma Ex_cmp en op s cl cr l tl r tr :
  cmp_text op = Some s -> Ex en cl l tl -> Ex en cr r tr -> 5 <= cl -> 5 <= cr ->
  typed (NBin op l r) -> Ex en 4 (NBin op l r) (tl ++ TSym s :: tr).
Proof.
  intros Hs El Er Hl Hr T. assert (Hc : cmp_sym s = Some (Ok op)).
  { destruct op; try discriminate; injection Hs as <-; reflexivity. }
  eapply Ex_pred; eauto.
  - destruct op; try discriminate; injection Hs as <-; reflexivity.
  - intro r0. cbn [app lev]. rewrite (cmp_lev _ _ Hc). lia.
  - intros n rest Hn Hrest. cbn [app]. unfold predicate. rewrite Hc. cbn [length] in Hn.
    rewrite (ex_rdv en cr r tr n Er Hr); [|lia|lia]. cbn [bind orelse].
    unfold v_compare. cbn [bind].
    pose proof (typed_not_none _ (ex_typed _ _ _ _ El)) as Nl.
    destruct l; try congruence; rewrite (typed_mk _ T); reflexivity.
Qed.
Lemma negate_ok (neg : bool) e : typed (if neg then NUn UNot e else e) -> typed e ->
  v_negate neg (mk e) = Ok (if neg then NUn UNot e else e).
Proof.
  intros T Te. unfold v_negate. rewrite (typed_mk _ Te). cbn [bind].
  destruct neg; [apply (typed_mk _ T) | reflexivity].
Qed.
Lemma typed_un op e : typed e -> typed (NUn op e).
Proof. intros [t H]. exists (unop_type op t). cbn [wrapped check tyof bind]. rewrite H. reflexivity. Qed.
Lemma typed_neg (neg : bool) e : typed e -> typed (if neg then NUn UNot e else e).
Proof. destruct neg; [apply typed_un | auto]. Qed.

Definition is_text (neg : bool) : list token := if neg then [K "IS"; K "NOT"] else [K "IS"].
Lemma Ex_isnull en (neg : bool) c l tl :
  Ex en c l tl -> 5 <= c ->
  Ex en 4 (if neg then NUn UNot (NUn UIsNull l) else NUn UIsNull l) (tl ++ is_text neg ++ [K "NULL"]).
Proof.
  intros El Hc. pose proof (typed_un UIsNull _ (ex_typed _ _ _ _ El)) as T.
  eapply Ex_pred; eauto; [now apply typed_neg | now destruct neg | intro; destruct neg; cbn; lia |].
  intros n rest Hn Hr. destruct neg; cbn [is_text app].
  - change (Ok (v_negate true (mk (NUn UIsNull l)), rest) = Ok (Ok (NUn UNot (NUn UIsNull l)), rest)).
    rewrite (negate_ok true); [reflexivity | now apply (typed_neg true) | exact T].
  - change (Ok (v_negate false (mk (NUn UIsNull l)), rest) = Ok (Ok (NUn UIsNull l), rest)).
    rewrite (negate_ok false); [reflexivity | exact T | exact T].
Qed.
Lemma Ex_distinct en (neg : bool) cl cr l tl r tr :
  Ex en cl l tl -> Ex en cr r tr -> 5 <= cl -> 5 <= cr -> typed (NBin BDistinct l r) ->
  Ex en 4 (if neg then NUn UNot (NBin BDistinct l r) else NBin BDistinct l r)
     (tl ++ is_text neg ++ K "DISTINCT" :: K "FROM" :: tr).
Proof.
  intros El Er Hl Hr T.
  eapply Ex_pred; eauto; [now apply typed_neg | now destruct neg | intro; destruct neg; cbn; lia |].
  intros n rest Hn Hrest. rewrite <- app_assoc. rewrite app_length in Hn. cbn [length app] in Hn |- *.
  assert (V : p_value en n 0 (tr ++ rest) = Ok (Ok r, rest)) by (apply (ex_rdv en cr r tr n Er Hr); lia).
  destruct neg; cbn [is_text app];
    unfold predicate; cbn [K eat_kw String.eqb Ascii.eqb Bool.eqb need bind]; rewrite V; cbn [bind];
    rewrite negate_ok; auto; now apply typed_un.
Qed.

Definition not_text (neg : bool) : list token := if neg then [K "NOT"] else [].
(** BETWEEN, IN and LIKE with or without NOT in front. *)
Lemma Ex_tail en (neg : bool) c l tl e k tail :
  Ex en c l tl -> 5 <= c -> typed e -> is_tail_kw k = true ->
  (forall n rest, 8 * length tail + 4 <= n -> lev rest <= 2 ->
     pred_tail (p_bool en n 0) (p_value en n 0) (p_query en n) neg (Ok l) k (tail ++ rest)
     = Ok (v_negate neg (mk e), rest)) ->
  Ex en 4 (if neg then NUn UNot e else e) (tl ++ not_text neg ++ K k :: tail).
Proof.
  intros El Hc T Hk P.
  assert (Hk' : k = "BETWEEN" \/ k = "IN" \/ k = "LIKE").
  { unfold is_tail_kw, mem in Hk. cbn [existsb] in Hk. rewrite !orb_true_iff, !String.eqb_eq in Hk.
    intuition discriminate. }
  eapply Ex_pred; eauto.
  - now apply typed_neg.
  - destruct neg; [reflexivity|]. destruct Hk' as [->|[->| ->]]; reflexivity.
  - intro r. destruct neg; [cbn; lia|]. destruct Hk' as [->|[->| ->]]; cbn; lia.
  - intros n rest Hn Hr. rewrite <- app_assoc. rewrite app_length in Hn. cbn [length app] in Hn |- *.
    assert (N := negate_ok neg e (typed_neg neg _ T) T).
    rewrite <- N. rewrite <- (P n rest); [|lia|exact Hr].
    destruct neg; [reflexivity|]. destruct Hk' as [->|[->| ->]]; reflexivity.
Qed.
Lemma Ex_between en (neg : bool) c1 c2 c3 v tv lo tlo hi thi :
  Ex en c1 v tv -> Ex en c2 lo tlo -> Ex en c3 hi thi -> 5 <= c1 -> 5 <= c2 -> 5 <= c3 ->
  typed (NBetween v lo hi) ->
  Ex en 4 (if neg then NUn UNot (NBetween v lo hi) else NBetween v lo hi)
     (tv ++ not_text neg ++ K "BETWEEN" :: tlo ++ K "AND" :: thi).
Proof.
  intros Ev El Eh H1 H2 H3 T. eapply Ex_tail; eauto.
  intros n rest Hn Hr. rewrite app_length in Hn. cbn [length] in Hn. rewrite <- app_assoc. cbn [app].
  unfold pred_tail. cbn [String.eqb Ascii.eqb Bool.eqb].
  rewrite (ex_rdv en c2 lo tlo n El H2); [|lia|cbn; lia]. cbn [bind]. rewrite eat_kw_same. cbn [need bind].
  rewrite (ex_rdv en c3 hi thi n Eh H3); [|lia|lia]. reflexivity.
Qed.
Lemma Ex_inlist en (neg : bool) c v tv l tss :
  Ex en c v tv -> 5 <= c -> Forall2 (fun e ts => exists c, Ex en c e ts) l tss -> l <> [] ->
  typed (NInList v l) ->
  Ex en 4 (if neg then NUn UNot (NInList v l) else NInList v l)
     (tv ++ not_text neg ++ K "IN" :: paren (commas tss)).
Proof.
  intros Ev H1 Hl N T. eapply Ex_tail; eauto.
  intros n rest Hn Hr. unfold paren in *. cbn [length] in Hn. rewrite app_length in Hn. cbn [length] in Hn.
  cbn [app]. rewrite <- app_assoc. cbn [app]. unfold pred_tail. cbn [String.eqb Ascii.eqb Bool.eqb].
  rewrite eat_sym_same. cbn [need bind].
  rewrite (exprs_ok _ _ l tss); try reflexivity; auto.
  apply Rx_Rd. apply ex_rxs; auto. lia.
Qed.

(** A query never is an expression. *)
Definition query_kw (k : string) : bool := mem k ["SELECT"; "WITH"; "TABLE"; "VALUES"].
Lemma expr_of_query en n k t r :
  4 <= n -> query_kw k = true -> p_bool en n 0 (TKw k t :: r) = Err SyntaxErr.
Proof.
  intros Hn Hk. destruct n as [|[|[|n]]]; try lia.
  assert (k = "SELECT" \/ k = "WITH" \/ k = "TABLE" \/ k = "VALUES") as D.
  { unfold query_kw, mem in Hk. cbn [existsb] in Hk. rewrite !orb_true_iff, !String.eqb_eq in Hk.
    intuition discriminate. }
  destruct D as [->|[->|[->| ->]]]; reflexivity.
Qed.
Definition starts_query (ts : list token) : bool :=
  match ts with TKw k _ :: _ => query_kw k | _ => false end.
(** What follows a query: nothing, a closing parenthesis, or a character that
    the lexer does not know (such as ';'). *)
Definition qend (rest : list token) : bool :=
  match rest with
  | [] | TUnrec _ :: _ => true
  | TSym s :: _ => String.eqb s ")"
  | _ => false
  end.
Record Rq (en : env) (q : node) (ts : list token) : Prop := {
  rq_first : starts_query ts = true;
  rq_read : forall n rest, 8 * length ts + 4 <= n -> qend rest = true ->
    p_query en n (ts ++ rest) = Ok (Ok q, rest) }.
Lemma Ex_inquery en (neg : bool) c v tv q tq :
  Ex en c v tv -> 5 <= c -> Rq en q tq -> typed (NInQuery v q) ->
  Ex en 4 (if neg then NUn UNot (NInQuery v q) else NInQuery v q)
     (tv ++ not_text neg ++ K "IN" :: paren tq).
Proof.
  intros Ev H1 [F Q] T. eapply Ex_tail; eauto.
  intros n rest Hn Hr. unfold paren in *. cbn [length] in Hn. rewrite app_length in Hn. cbn [length] in Hn.
  cbn [app]. rewrite <- app_assoc. cbn [app]. unfold pred_tail. cbn [String.eqb Ascii.eqb Bool.eqb].
  rewrite eat_sym_same. cbn [need bind].
  assert (sep (p_bool en n 0) (tq ++ TSym ")" :: rest) = Err SyntaxErr) as ->.
  { destruct tq as [|t tq]; [discriminate F|]. destruct t; try discriminate F. cbn [app].
    unfold sep. cbn [p_sep length]. rewrite expr_of_query; [reflexivity | lia | exact F]. }
  cbn [bind orelse]. rewrite Q by (reflexivity || lia). cbn [bind]. rewrite eat_sym_same. reflexivity.
Qed.
(** The escape may be read as nothing. *)
Lemma Like_text en (neg : bool) c1 c2 v tv p tp esc0 esc tesc :
  Ex en c1 v tv -> Ex en c2 p tp -> 5 <= c1 -> 5 <= c2 ->
  opt_rel (fun e ts => forall n, 8 * length ts + 3 <= n -> Rdv (p_value en n 0) e ts) esc0 tesc ->
  match esc0 with Some e => opt_node e | None => None end = esc -> typed (NLike v p esc) ->
  Ex en 4 (if neg then NUn UNot (NLike v p esc) else NLike v p esc)
     (tv ++ not_text neg ++ K "LIKE" :: tp ++ match tesc with None => [] | Some x => K "ESCAPE" :: x end).
Proof.
  intros Ev Ep H1 H2 He Hd T. eapply Ex_tail; eauto.
  intros n rest Hn Hr. rewrite app_length in Hn. rewrite <- app_assoc.
  unfold pred_tail. cbn [String.eqb Ascii.eqb Bool.eqb].
  destruct esc0 as [e|], tesc as [te|]; try contradiction.
  - cbn [length app] in *.
    rewrite (ex_rdv en c2 p tp n Ep H2); [|lia|cbn; lia]. cbn [bind]. rewrite eat_kw_same.
    rewrite (He n); [|lia|lia]. cbn [bind]. subst esc. reflexivity.
  - cbn [app length] in *. rewrite (ex_rdv en c2 p tp n Ep H2); [|lia|lia]. cbn [bind].
    assert (eat_kw "ESCAPE" rest = None) as ->; [|subst esc; reflexivity].
    destruct rest as [|[w| | | | | | | | | | | | ] r]; try reflexivity. cbn [eat_kw].
    destruct (String.eqb_spec w "ESCAPE") as [->|]; [exfalso; revert Hr; vm_compute; lia | reflexivity].
Qed.
Lemma Ex_like en (neg : bool) c1 c2 v tv p tp esc tesc :
  Ex en c1 v tv -> Ex en c2 p tp -> 5 <= c1 -> 5 <= c2 ->
  opt_rel (fun e ts => exists c, Ex en c e ts /\ 5 <= c) esc tesc -> typed (NLike v p esc) ->
  Ex en 4 (if neg then NUn UNot (NLike v p esc) else NLike v p esc)
     (tv ++ not_text neg ++ K "LIKE" :: tp ++ match tesc with None => [] | Some x => K "ESCAPE" :: x end).
Proof.
  intros Ev Ep H1 H2 He T. apply (Like_text en neg c1 c2 v tv p tp esc); auto.
  - destruct esc as [e|], tesc as [te|]; try contradiction; [|exact I]. destruct He as (c & Ee & Hc).
    intros n Hn. now apply (ex_rdv en c).
  - destruct esc as [e|], tesc as [te|]; try contradiction; [|reflexivity]. destruct He as (c & Ee & Hc).
    pose proof (typed_not_none _ (ex_typed _ _ _ _ Ee)) as Ne. destruct e; try congruence; reflexivity.
Qed.
