(** C68: expressions built with the operators of Python. *)
From Coq Require Import String List ZArith NArith Bool Arith Lia.
From Verif Require Import PyStr Printer Types Inference Lexer StrFacts PrinterFacts Functions Ast Sql Tokens SqlReads Parser Good SmallTrees PyOps
  PropertiesLiterals PropertiesRoundTrip.
Import ListNotations.
Open Scope nat_scope.
Open Scope string_scope.
Open Scope list_scope.

(** An object of treeno that is a value and was built without an exception. *)
Definition built (e : node) : Prop := is_value e = true /\ exists t, check e = Ok (Some t).
Definition comparison (op : pyop) : bool :=
  match op with PyEq | PyNe | PyGt | PyGe | PyLt | PyLe => true | _ => false end.
Definition arithmetic (op : pyop) : bool :=
  match op with PyAdd | PySub | PyMul | PyDiv | PyMod => true | _ => false end.
(** The operator of SQL that an operator of Python is written for. *)
Definition sign (op : pyop) : string :=
  match op with
  | PyAdd => "+" | PySub => "-" | PyMul => "*" | PyDiv => "/" | PyMod => "%"
  | PyEq => "=" | PyNe => "<>" | PyGt => ">" | PyGe => ">=" | PyLt => "<" | PyLe => "<="
  | PyAnd => "AND" | PyOr => "OR"
  | PyPow => ","
  end.
(** A text with or without parentheses around it. *)
Definition enclosed (s t : string) : Prop := t = s \/ t = String.append "(" (String.append s ")").

(** * What is built *)

(** The text of [a op b] has the operands in this order around the sign of SQL. *)
Theorem C68_text : forall op a b e, op <> PyPow -> built a -> apply_op op (PObj a) b = Ok (PObj e) ->
  exists r ta tb, wrap_literal b = Ok r /\ enclosed (sql a default_opts) ta /\ enclosed (sql r default_opts) tb
    /\ sql e default_opts = String.append ta (String.append " " (String.append (sign op) (String.append " " tb))).
Proof.
  intros op a b e NP [V _] H. unfold apply_op in H. cbn [has_methods] in H. rewrite V in H.
  unfold method in H. cbn [wrap_literal] in H. rewrite V in H. cbn [bind] in H.
  destruct (wrap_literal b) as [r|x] eqn:W; [|discriminate H]. cbn [bind] in H. unfold made in H.
  match type of H with bind (check ?n) _ = _ => assert (E : e = n) by (destruct (check n); [now injection H|discriminate H]) end.
  clear H. assert (P : forall cur left n, enclosed (sql n default_opts) (pemdas cur left n (sql_n false n) default_opts)).
  { intros. unfold pemdas, enclosed. destruct (needs_parens cur left n); [right|left]; reflexivity. }
  exists r. subst e. destruct op; try contradiction;
    do 2 eexists; (split; [reflexivity|]); (split; [apply P|]); (split; [apply P|]); reflexivity.
Qed.
Print Assumptions C68_text.
Lemma made_inv n e : made n = Ok (PObj e) -> e = n.
Proof. unfold made. destruct (check n); [intro H; now injection H|discriminate]. Qed.
Theorem C68_power : forall a b e, built a -> apply_op PyPow (PObj a) b = Ok (PObj e) ->
  exists r, wrap_literal b = Ok r
    /\ sql e default_opts = String.append "POWER(" (String.append (sql a default_opts) (String.append "," (String.append (sql r default_opts) ")"))).
Proof.
  intros a b e [V _] H. unfold apply_op in H. cbn [has_methods] in H. rewrite V in H.
  unfold method in H. cbn [wrap_literal] in H. rewrite V in H. cbn [bind] in H.
  destruct (wrap_literal b) as [r|x] eqn:W; [|discriminate H]. cbn [bind] in H. apply made_inv in H as ->.
  exists r. split; [reflexivity|].
  change (sql (NFunc FPower [a; r] no_fopts) default_opts)
    with (String.append "POWER(" (String.append (join_stmts [sql a default_opts; sql r default_opts] default_opts) ")")).
  unfold join_stmts, join_stmts_d. rewrite join_core_default by reflexivity.
  change (join "," [sql a default_opts; sql r default_opts]) with (String.append (sql a default_opts) (String.append "," (sql r default_opts))).
  now rewrite !sapp_assoc.
Qed.
Print Assumptions C68_power.
(** The unary operators.  [~] prints a negation of its own for some classes (expression.py 580-594). *)
Definition negated_inside (e : node) : Prop :=
  match e with
  | NBin (BDistinct | BEq | BNe) _ _ | NUn UIsNull _ | NLike _ _ _ | NInList _ _ | NInQuery _ _ | NBetween _ _ _ => True
  | _ => False
  end.
Theorem C68_unary : forall op a e, built a -> (op = PyInvert -> ~ negated_inside a) -> apply_unop op (PObj a) = Ok (PObj e) ->
  exists ta, enclosed (sql a default_opts) ta
    /\ sql e default_opts = String.append match op with PyInvert => "NOT " | PyPos => "+" | PyNeg => "-" end ta.
Proof.
  intros op a e [V _] N H. unfold apply_unop in H. cbn [has_methods] in H. rewrite V in H.
  unfold unary_method in H. cbn [wrap_literal] in H. rewrite V in H. cbn [bind] in H. apply made_inv in H as ->.
  assert (P : forall cur left n, enclosed (sql n default_opts) (pemdas cur left n (sql_n false n) default_opts)).
  { intros. unfold pemdas, enclosed. destruct (needs_parens cur left n); [right|left]; reflexivity. }
  destruct op; [|eexists; split; [apply P|reflexivity]..].
  eexists. split; [apply (P (Some 2) true)|].
  assert (G : negatable a = false).
  { specialize (N eq_refl). destruct a; try reflexivity; try (elim N; exact Logic.I);
      match goal with o : binop |- _ => destruct o | o : unop |- _ => destruct o end; try reflexivity; elim N; exact Logic.I. }
  change (sql (NUn UNot a) default_opts) with
    (if negatable a then sql_n true a default_opts else String.append "NOT " (pemdas (Some 2) true a (sql_n false a) default_opts)).
  now rewrite G.
Qed.
Print Assumptions C68_unary.
(** [~(x == y)] has the text of [x != y], and the other way round. *)
Theorem C68_invert : forall op a b e, op = PyEq \/ op = PyNe -> built a -> apply_op op (PObj a) b = Ok (PObj e) ->
  exists e' f, apply_unop PyInvert (PObj e) = Ok (PObj e')
    /\ apply_op match op with PyEq => PyNe | _ => PyEq end (PObj a) b = Ok (PObj f) /\ sql e' default_opts = sql f default_opts.
Proof.
  intros op a b e O [V _] H. unfold apply_op in *. cbn [has_methods] in *. rewrite V in *.
  unfold method in *. cbn [wrap_literal] in *. rewrite V in *. cbn [bind] in *.
  destruct (wrap_literal b) as [r|x] eqn:W; [|discriminate H]. cbn [bind] in *.
  unfold made in *. unfold apply_unop, unary_method.
  destruct O as [-> | ->]; cbn [check] in *;
    (destruct (wrapped a (check a)) as [ta|] eqn:Ca; [|discriminate H]); (destruct (wrapped r (check r)) as [tr|] eqn:Cr; [|discriminate H]);
    injection H as <-; cbn [has_methods wrap_literal is_value bind]; unfold made; cbn [check]; rewrite Ca, Cr;
    do 2 eexists; (split; [reflexivity|]); (split; [reflexivity|]); reflexivity.
Qed.
Print Assumptions C68_invert.

(** * When nothing is built *)

(** What cannot be an operand: None (NULL is an object of its own), containers, values of
    other classes, relations. *)
Definition operand (v : pyval) : Prop :=
  match v with
  | PObj e => is_value e = true
  | PLit LNone | PList _ | POther => False
  | PLit (LDec d) => exists t, infer_decimal d = Ok t
  | PLit _ => True
  end.
Lemma operand_wraps v : operand v <-> exists r, wrap_literal v = Ok r.
Proof.
  destruct v as [e|[]| |]; cbn [operand wrap_literal infer_type bind]; try (split; [intros []|intros [r H]; discriminate H]);
    try (split; [intros _; eexists; reflexivity|auto]).
  - destruct (is_value e); [split; [eauto|auto]|]. split; [discriminate|]. destruct (is_none e); intros [r H]; discriminate H.
  - split; [intros [t ->]; eexists; reflexivity|]. intros [r H]. destruct (infer_decimal d); [eauto|discriminate H].
Qed.
Lemma wraps_built v r : (forall e, v = PObj e -> built e) -> wrap_literal v = Ok r -> built r.
Proof.
  intros B H. destruct v as [e|l| |]; try discriminate H.
  - cbn [wrap_literal] in H. destruct (B e eq_refl) as [V T]. rewrite V in H. injection H as <-. now split.
  - assert (X : exists t, infer_type l = Ok t /\ r = NLit l t).
    { destruct l; try discriminate H; cbn [wrap_literal] in H; destruct (infer_type _) as [t|]; try discriminate H;
        injection H as <-; eauto. }
    destruct X as (t & I & ->). split; [reflexivity|]. exists t. cbn [check].
    assert (U : match l with LNone => true | _ => negb (is_unknown t) end = true).
    { destruct l; cbn [infer_type] in I; try (injection I as <-; reflexivity); try reflexivity.
      - injection I as <-. unfold infer_integral. destruct (_ && _)%bool; reflexivity.
      - unfold infer_decimal in I. destruct (index_of _ _); unfold decimal in I; destruct (_ && _)%bool; try discriminate I;
          injection I as <-; reflexivity. }
    rewrite U. reflexivity.
Qed.
Lemma built_wrapped e : built e -> exists t, wrapped e (check e) = Ok t.
Proof. intros [V [t T]]. exists t. rewrite T. destruct e; try reflexivity. discriminate V. Qed.

(** A comparison, AND or OR of an object with anything that can be an operand is built,
    whatever the types; with anything else it raises. *)
Theorem C68_built : forall op a b, (comparison op = true \/ op = PyAnd \/ op = PyOr) -> built a ->
  (forall e, b = PObj e -> built e) -> operand b -> exists e, apply_op op (PObj a) b = Ok (PObj e) /\ built e.
Proof.
  intros op a b O A B P. apply operand_wraps in P as [r W]. pose proof (wraps_built b r B W) as R.
  unfold apply_op. cbn [has_methods]. destruct A as [V T]. rewrite V. unfold method. cbn [wrap_literal]. rewrite V, W. cbn [bind].
  destruct (built_wrapped a (conj V T)) as [ta Ta], (built_wrapped r R) as [tr Tr].
  destruct op; try (destruct O as [O|[O|O]]; discriminate O); eexists; unfold made; cbn [check]; rewrite Ta, Tr;
    (split; [reflexivity|]); (split; [reflexivity|]); eexists; cbn [check]; rewrite Ta, Tr; reflexivity.
Qed.
Print Assumptions C68_built.
Theorem C68_not_an_operand : forall op a b, built a -> ~ operand b ->
  exists x, apply_op op (PObj a) b = Err x /\
    match b with
    | PLit LNone => x = ValueError
    | PList _ => x = AssertionError
    | PLit _ => x = AssertionError
    | POther => x = NotImplementedError
    | PObj e => x = if is_none e then ValueError else NotImplementedError
    end.
Proof.
  intros op a b [V _] N. unfold apply_op. cbn [has_methods]. rewrite V. unfold method. cbn [wrap_literal bind]. rewrite V. cbn [bind].
  destruct b as [e|l| |]; cbn [operand wrap_literal] in *.
  - destruct (is_value e); [contradiction|]. destruct (is_none e); eexists; now split.
  - destruct l; try (now elim N); try (eexists; now split). cbn [infer_type].
    destruct (infer_decimal d) as [t|x] eqn:D; [elim N; eauto|]. exists x. split; [reflexivity|].
    unfold infer_decimal, decimal in D. destruct (index_of _ _), (_ && _)%bool; cbn [py_assert bind] in D; congruence.
  - eexists; now split.
  - eexists; now split.
Qed.
Print Assumptions C68_not_an_operand.

(** * A Python literal on the left *)

(** Value has no reflected methods, so that arithmetic and the logical operators raise. *)
Theorem C68_literal_left : forall op v e, comparison op = false -> is_object v = false -> is_value e = true ->
  (op = PyMod -> forall s, v <> PLit (LStr s)) -> apply_op op v (PObj e) = Err TypeError.
Proof.
  intros op v e C N V M. unfold apply_op. destruct v as [n|l| |]; [discriminate N| | |]; cbn [has_methods is_object]; rewrite V;
    destruct op; try discriminate C; try reflexivity.
  destruct l; try reflexivity. elim (M eq_refl s eq_refl).
Qed.
Print Assumptions C68_literal_left.
(** What a comparison says of two numbers. *)
Definition holds (op : pyop) (x y : Z) : Prop :=
  match op with
  | PyEq => x = y | PyNe => x <> y | PyGt => (x > y)%Z | PyGe => (x >= y)%Z | PyLt => (x < y)%Z | PyLe => (x <= y)%Z
  | _ => False
  end.
(** A comparison is turned around: the object is the left operand of another comparison,
    which says the same. *)
Theorem C68_literal_compared : forall op v e, comparison op = true -> is_object v = false -> is_value e = true ->
  exists op', comparison op' = true /\ (forall x y, holds op x y <-> holds op' y x)
    /\ apply_op op v (PObj e) = apply_op op' (PObj e) v.
Proof.
  intros op v e C N V.
  assert (X : exists op', swapped op = Some op' /\ comparison op' = true /\ (forall x y, holds op x y <-> holds op' y x)).
  { destruct op; try discriminate C; eexists; (split; [reflexivity|]); (split; [reflexivity|]); intros x y; cbn [holds]; lia. }
  destruct X as (op' & S & C' & H). exists op'. split; [exact C'|]. split; [exact H|].
  unfold apply_op. cbn [has_methods]. rewrite V. destruct v as [n|l| |]; [discriminate N| | |]; cbn [has_methods is_object].
  - destruct op; try discriminate C; now rewrite S.
  - destruct op; try discriminate C; now rewrite S.
  - destruct op; try discriminate C; now rewrite S.
Qed.
Print Assumptions C68_literal_compared.

(** * Comparisons are objects, and objects count as true *)

(** [x in l] is true for every list that starts with an operand, equal or not. *)
Theorem C68_member : forall a y l, built a -> (forall e, y = PObj e -> built e) -> operand y ->
  eval (IsIn (Leaf (PObj a)) (y :: l)) = Ok (PLit (LBool true)).
Proof.
  intros a y l A B P. cbn [eval bind member].
  assert (E : exists e, apply_op PyEq y (PObj a) = Ok (PObj e) /\ built e).
  { destruct (is_object y) eqn:O.
    - destruct y as [n| | |]; try discriminate O. apply C68_built; [now left|now apply B|intros e [= <-]; exact A|exact (proj1 A)].
    - destruct (C68_literal_compared PyEq y a eq_refl O (proj1 A)) as (op' & C & _ & ->).
      apply C68_built; [now left|exact A|exact B|exact P]. }
  destruct E as (e & -> & [V _]). cbn [bind truth]. destruct e; try discriminate V; reflexivity.
Qed.
Print Assumptions C68_member.
(** Of a chain of comparisons only the last one is built. *)
Theorem C68_chain : forall a op b op' c x, comparison op = true -> built b ->
  (operand a /\ forall e, a = PObj e -> built e) -> eval c = Ok x ->
  eval (Chain (Leaf a) op (Leaf (PObj b)) op' c) = eval (Op op' (Leaf (PObj b)) c).
Proof.
  intros a op b op' c x C B [P A] E. cbn [eval bind]. rewrite E. cbn [bind].
  assert (F : exists e, apply_op op a (PObj b) = Ok (PObj e) /\ built e).
  { destruct (is_object a) eqn:O.
    - destruct a as [n| | |]; try discriminate O. apply C68_built; [now left|now apply A|intros e [= <-]; exact B|exact (proj1 B)].
    - destruct (C68_literal_compared op a b C O (proj1 B)) as (op2 & C2 & _ & ->).
      apply C68_built; [now left|exact B|exact A|exact P]. }
  destruct F as (e & -> & [V _]). cbn [bind]. destruct e; try discriminate V; reflexivity.
Qed.
Print Assumptions C68_chain.
(** [and], [or] and [not] build nothing. *)
Theorem C68_words : forall a p x, is_value a = true -> eval p = Ok x ->
  eval (AndThen (Leaf (PObj a)) p) = Ok x /\ eval (OrElse (Leaf (PObj a)) p) = Ok (PObj a)
  /\ eval (Not (Leaf (PObj a))) = Ok (PLit (LBool false)).
Proof.
  intros a p x V E. assert (T : truth (PObj a) = Ok true) by (destruct a; try discriminate V; reflexivity).
  cbn [eval bind]. rewrite T. cbn [bind negb]. auto.
Qed.
Print Assumptions C68_words.

(** * Whole trees

    The Python expression with the same tree: columns are [Field(n)], integers Python integers. *)
Definition py_arith_op (op : arith_op) : pyop :=
  match op with OAdd => PyAdd | OSub => PySub | OMul => PyMul | ODiv => PyDiv | OMod => PyMod end.
Fixpoint py_arith (a : arith) : pyexp :=
  match a with
  | AColumn n => Leaf (PObj (NField n TRNone unknown))
  | AInteger z => Leaf (PLit (LInt z))
  | ABinary op a b => Op (py_arith_op op) (py_arith a) (py_arith b)
  end.
Definition integer (a : arith) : bool := match a with AInteger _ => true | _ => false end.
(** No integer is the left operand of arithmetic. *)
Fixpoint left_free (a : arith) : bool :=
  match a with
  | ABinary _ a b => (negb (integer a) && left_free a && left_free b)%bool
  | _ => true
  end.
Lemma arith_built a : built (arith_node a).
Proof. split; [now destruct a|]. destruct (arith_check a) as (t & H & _). eauto. Qed.
Lemma eval_arith a : left_free a = true ->
  eval (py_arith a) = Ok (match a with AInteger z => PLit (LInt z) | _ => PObj (arith_node a) end).
Proof.
  induction a as [n|z|op a IHa b IHb]; intro L; [reflexivity..|].
  cbn [left_free] in L. apply andb_true_iff in L as [L Lb]. apply andb_true_iff in L as [I La]. apply negb_true_iff in I.
  cbn [py_arith eval]. rewrite (IHa La), (IHb Lb). cbn [bind].
  assert (A : (match a with AInteger z => PLit (LInt z) | _ => PObj (arith_node a) end) = PObj (arith_node a)) by (now destruct a).
  rewrite A. unfold apply_op. cbn [has_methods]. assert (V : forall x, is_value (arith_node x) = true) by (intros []; reflexivity).
  rewrite V. unfold method. cbn [wrap_literal]. rewrite V. cbn [bind].
  assert (B : wrap_literal (match b with AInteger z => PLit (LInt z) | _ => PObj (arith_node b) end) = Ok (arith_node b)).
  { destruct b as [|z|]; reflexivity. }
  rewrite B. cbn [bind]. unfold made. destruct (arith_check (ABinary op a b)) as (t & T & _). cbn [arith_node] in T.
  destruct op; cbn [py_arith_op arith_binop] in *; rewrite T; reflexivity.
Qed.
(** The object that is built, its text, and what the text is read as. *)
Theorem C68_arithmetic : forall en a o, left_free a = true -> integer a = false -> arith_names a -> ospaces o < 80 ->
  eval (py_arith a) = Ok (PObj (arith_node a))
  /\ exists s, to_sql o (arith_node a) = Ok s /\ expression_from_sql en s = Ok (arith_node a).
Proof.
  intros en a o L I N O. split; [rewrite (eval_arith a L); now destruct a|]. now apply C17_arithmetic.
Qed.
Print Assumptions C68_arithmetic.

Definition py_cmp (op : cmp_op) : pyop :=
  match op with
  | OEq => PyEq | ONe => PyNe | OLt => PyLt | OLe => PyLe | OGt => PyGt | OGe => PyGe | ODistinct => PyEq
  end.
Fixpoint py_cond (c : cond) : pyexp :=
  match c with
  | CCompare op a b => Op (py_cmp op) (py_arith a) (py_arith b)
  | CAnd a b => Op PyAnd (py_cond a) (py_cond b)
  | COr a b => Op PyOr (py_cond a) (py_cond b)
  | CNot a => UnOp PyInvert (py_cond a)
  | _ => Leaf POther
  end.
(** Conditions of comparisons, [&], [|] and [~]; two integers are compared by Python itself. *)
Fixpoint sugared (c : cond) : bool :=
  match c with
  | CCompare op a b =>
      (match op with ODistinct => false | _ => true end && left_free a && left_free b && negb (integer a && integer b))%bool
  | CAnd a b | COr a b => (sugared a && sugared b)%bool
  | CNot a => sugared a
  | _ => false
  end.
Definition turn (op : cmp_op) : cmp_op :=
  match op with OLt => OGt | OGt => OLt | OLe => OGe | OGe => OLe | x => x end.
(** Comparisons with an integer on the left are turned around. *)
Fixpoint turned (c : cond) : cond :=
  match c with
  | CCompare op (AInteger z) b => CCompare (turn op) b (AInteger z)
  | CAnd a b => CAnd (turned a) (turned b)
  | COr a b => COr (turned a) (turned b)
  | CNot a => CNot (turned a)
  | c => c
  end.
Lemma cond_built c : built (cond_node c).
Proof. split; [now destruct c|]. rewrite cond_check. eauto. Qed.
Lemma cond_value c : is_value (cond_node c) = true. Proof. now destruct c. Qed.
Lemma eval_cond c : sugared c = true -> eval (py_cond c) = Ok (PObj (cond_node (turned c))).
Proof.
  assert (V : forall x, is_value (arith_node x) = true) by (intros []; reflexivity).
  induction c as [op a b|a|a b c|a b l|a IHa b IHb|a IHa b IHb|a IHa]; intro S; try discriminate S.
  - cbn [sugared] in S. apply andb_true_iff in S as [S I]. apply andb_true_iff in S as [S Lb]. apply andb_true_iff in S as [D La].
    apply negb_true_iff in I. cbn [py_cond eval]. rewrite (eval_arith a La), (eval_arith b Lb). cbn [bind].
    assert (B : wrap_literal (match b with AInteger z => PLit (LInt z) | _ => PObj (arith_node b) end) = Ok (arith_node b)) by (now destruct b).
    assert (G : forall op x y, op <> ODistinct -> made (NBin (cmp_binop op) (arith_node x) (arith_node y)) = Ok (PObj (cond_node (CCompare op x y)))).
    { intros op' x y _. unfold made. change (NBin (cmp_binop op') (arith_node x) (arith_node y)) with (cond_node (CCompare op' x y)).
      now rewrite cond_check. }
    assert (D' : op <> ODistinct) by (intros ->; discriminate D).
    destruct (integer a) eqn:Ia.
    + destruct a as [|z|]; try discriminate Ia. cbn [turned]. destruct b as [n|z'|o' x y]; [|discriminate I|].
      * unfold apply_op. cbn [has_methods is_object]. rewrite V.
        destruct op; try contradiction; cbn [py_cmp swapped turn]; unfold method; cbn [wrap_literal]; rewrite V; cbn [bind infer_type];
          match goal with |- _ = Ok (PObj (cond_node (CCompare ?q _ _))) => apply (G q (AColumn n) (AInteger z)); discriminate end.
      * unfold apply_op. cbn [has_methods is_object]. rewrite V.
        destruct op; try contradiction; cbn [py_cmp swapped turn]; unfold method; cbn [wrap_literal]; rewrite V; cbn [bind infer_type];
          match goal with |- _ = Ok (PObj (cond_node (CCompare ?q _ _))) => apply (G q (ABinary o' x y) (AInteger z)); discriminate end.
    + assert (A : (match a with AInteger z => PLit (LInt z) | _ => PObj (arith_node a) end) = PObj (arith_node a)) by (now destruct a).
      assert (T : turned (CCompare op a b) = CCompare op a b) by (now destruct a).
      rewrite A, T. unfold apply_op. cbn [has_methods]. rewrite V. unfold method. cbn [wrap_literal]. rewrite V, B. cbn [bind].
      destruct op; try contradiction; match goal with |- _ = Ok (PObj (cond_node (CCompare ?q _ _))) => apply (G q a b D') end.
  - cbn [sugared] in S. apply andb_true_iff in S as [Sa Sb]. cbn [py_cond eval]. rewrite (IHa Sa), (IHb Sb). cbn [bind].
    unfold apply_op. cbn [has_methods]. rewrite cond_value. unfold method. cbn [wrap_literal]. rewrite !cond_value. cbn [bind].
    unfold made. change (NBin BAnd (cond_node (turned a)) (cond_node (turned b))) with (cond_node (turned (CAnd a b))). now rewrite cond_check.
  - cbn [sugared] in S. apply andb_true_iff in S as [Sa Sb]. cbn [py_cond eval]. rewrite (IHa Sa), (IHb Sb). cbn [bind].
    unfold apply_op. cbn [has_methods]. rewrite cond_value. unfold method. cbn [wrap_literal]. rewrite !cond_value. cbn [bind].
    unfold made. change (NBin BOr (cond_node (turned a)) (cond_node (turned b))) with (cond_node (turned (COr a b))). now rewrite cond_check.
  - cbn [sugared] in S. cbn [py_cond eval]. rewrite (IHa S). cbn [bind]. unfold apply_unop. cbn [has_methods]. rewrite cond_value.
    unfold unary_method. cbn [wrap_literal]. rewrite cond_value. cbn [bind].
    unfold made. change (NUn UNot (cond_node (turned a))) with (cond_node (turned (CNot a))). now rewrite cond_check.
Qed.
Lemma turned_names c : sugared c = true -> cond_names c -> cond_names (turned c).
Proof.
  induction c as [op a b|a|a b c|a b l|a IHa b IHb|a IHa b IHb|a IHa]; intros S N; try discriminate S.
  - destruct a as [|z|]; cbn [turned cond_names] in *; tauto.
  - cbn [sugared] in S. apply andb_true_iff in S as [Sa Sb]. cbn [turned cond_names] in *. tauto.
  - cbn [sugared] in S. apply andb_true_iff in S as [Sa Sb]. cbn [turned cond_names] in *. tauto.
  - cbn [sugared] in S. cbn [turned cond_names] in *. destruct N as [N M]. split; [tauto|].
    destruct a as [op x y| | | | | |]; try exact M. destruct x as [|z|]; try exact M. destruct op; try contradiction; exact Logic.I.
Qed.
Theorem C68_conditions : forall en c o, sugared c = true -> cond_names c -> ospaces o < 80 ->
  eval (py_cond c) = Ok (PObj (cond_node (turned c)))
  /\ exists s, to_sql o (cond_node (turned c)) = Ok s /\ expression_from_sql en s = Ok (cond_node (turned c)).
Proof.
  intros en c o S N O. split; [now apply eval_cond|]. apply C17_conditions; [now apply turned_names|exact O].
Qed.
Print Assumptions C68_conditions.

(** * Cases *)
Local Definition a := column "a".
Local Definition b := column "b".
Local Definition num z := Leaf (PLit (LInt z)).
Local Definition col x := Leaf (PObj x).
Local Definition shown (p : pyexp) : result string :=
  let* v := eval p in match v with PObj e => to_sql default_opts e | _ => Err NotModelled end.
Example C68_case_built : built a /\ built (NBin BAdd a b) /\ operand (PLit (LStr "x")) /\ ~ operand (PLit LNone) /\ ~ operand (PList [PObj a]).
Proof. repeat split; try (eexists; reflexivity); intros []. Qed.
(** [(Field("a") + 1) * Field("b") % 2], [Field("a") ** 2], [~(Field("a") == "x")] *)
Example C68_case_texts :
  shown (Op PyMod (Op PyMul (Op PyAdd (col a) (num 1)) (col b)) (num 2)) = Ok "(""a"" + 1) * ""b"" % 2"
  /\ shown (Op PyPow (col a) (num 2)) = Ok "POWER(""a"",2)"
  /\ shown (Op PyAnd (Op PyEq (col a) (Leaf (PLit (LStr "x")))) (Op PyGe (num 5) (col b))) = Ok """a"" = 'x' AND ""b"" <= 5"
  /\ shown (UnOp PyInvert (Op PyEq (col a) (Leaf (PLit (LBool true))))) = Ok """a"" <> TRUE"
  /\ shown (UnOp PyNeg (Op PyAdd (col a) (col b))) = Ok "-(""a"" + ""b"")" /\ shown (UnOp PyPos (col a)) = Ok "+""a"""
  /\ shown (UnOp PyInvert (Op PyOr (col a) (col b))) = Ok "NOT (""a"" OR ""b"")" /\ ~ negated_inside (NBin BOr a b).
Proof. vm_compute. repeat split. intros []. Qed.
Example C68_case_trees :
  let t := ABinary OMod (ABinary OMul (ABinary OAdd (AColumn "a") (AInteger 1)) (AColumn "b")) (AInteger 2) in
  let c := COr (CNot (CCompare OLt (AInteger 3) (AColumn "a"))) (CCompare OEq t (AColumn "b")) in
  left_free t = true /\ integer t = false /\ sugared c = true
  /\ shown (py_cond c) = Ok "NOT ""a"" > 3 OR (""a"" + 1) * ""b"" % 2 = ""b""".
Proof. vm_compute. repeat split. Qed.
Example C68_case_raises :
  eval (Op PyAdd (num 1) (col a)) = Err TypeError /\ eval (Op PyAnd (Leaf (PLit (LBool true))) (col a)) = Err TypeError
  /\ eval (Op PyEq (col a) (Leaf (PLit LNone))) = Err ValueError /\ eval (Op PyLt (Leaf POther) (col a)) = Err NotImplementedError
  /\ eval (Op PyAdd (col a) (Leaf (PList []))) = Err AssertionError.
Proof. vm_compute. repeat split. Qed.
Example C68_case_true :
  eval (IsIn (col a) [PObj b]) = Ok (PLit (LBool true)) /\ eval (IsIn (col a) []) = Ok (PLit (LBool false))
  /\ eval (IsIn (col a) [PLit LNone; PObj a]) = Err ValueError.
Proof. vm_compute. repeat split. Qed.
(** A chain that keeps both comparisons does not exist: [0 < Field("a") < 10]. *)
Theorem C68_chain_refuted :
  shown (Chain (num 0) PyLt (col a) PyLt (num 10)) = Ok """a"" < 10"
  /\ shown (Op PyAnd (Op PyLt (num 0) (col a)) (Op PyLt (col a) (num 10))) = Ok """a"" > 0 AND ""a"" < 10".
Proof. vm_compute. repeat split. Qed.
Print Assumptions C68_chain_refuted.
