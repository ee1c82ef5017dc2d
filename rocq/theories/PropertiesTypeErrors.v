(** C78: what reading a type can raise, and that reading a type never gives up. *)
From Coq Require Import String Ascii List ZArith Bool Arith Lia.
From Verif Require Import PyStr Types TypeFacts Lexer TypeParser TypeRoundTrip TypeObjects PropertiesTypes.
Import ListNotations.
Open Scope nat_scope.
Open Scope string_scope.
Open Scope list_scope.

(** * Parsing *)
(** A parser that either takes at least one token or reports a syntax error. *)
Definition fine {A} (ts : list token) (r : pres A) : Prop :=
  match r with Ok (_, rest) => length rest < length ts | Err e => e = SyntaxErr end.
Lemma fine_eat k ts r : eat_kw k ts = Some r -> length r < length ts.
Proof. destruct ts as [|[] ts]; cbn [eat_kw]; try discriminate. destruct (_ =? _); [|discriminate]. intros [= <-]. cbn [length]. lia. Qed.
Lemma fine_sym k ts r : eat_sym k ts = Some r -> length r < length ts.
Proof. destruct ts as [|[] ts]; cbn [eat_sym]; try discriminate. destruct (_ =? _); [|discriminate]. intros [= <-]. cbn [length]. lia. Qed.
Lemma fine_ident ts : fine ts (p_ident ts).
Proof. destruct ts as [|[] ts]; cbn [p_ident]; try reflexivity; try destruct (mem _ _); cbn [fine length]; try reflexivity; lia. Qed.
Lemma fine_field ts : fine ts (p_interval_field ts).
Proof. destruct ts as [|[] ts]; cbn [p_interval_field]; try reflexivity; try destruct (mem _ _); cbn [fine length]; try reflexivity; lia. Qed.
Lemma fine_zone ts : match p_zone ts with Ok (_, r) => length r <= length ts | Err e => e = SyntaxErr end.
Proof.
  unfold p_zone. destruct (eat_kw "WITHOUT" ts) as [r|] eqn:E; [|destruct (eat_kw "WITH" ts) as [r|] eqn:E'; [rename E into E0; rename E' into E|apply le_n]];
    apply fine_eat in E; destruct (eat_kw "TIME" r) as [r1|] eqn:T; cbn [need bind orelse]; try apply le_n;
    apply fine_eat in T; destruct (eat_kw "ZONE" r1) as [r2|] eqn:Z; cbn [need bind orelse]; try apply le_n; apply fine_eat in Z; lia.
Qed.
Lemma fine_suffix n : forall t ts, length ts < n -> match p_type_suffix n t ts with Ok (_, r) => length r <= length ts | Err e => e = SyntaxErr end.
Proof.
  induction n as [|n IH]; intros t ts H; [lia|]. cbn [p_type_suffix]. destruct (eat_kw "ARRAY" ts) as [r|] eqn:E; [|apply le_n]. apply fine_eat in E.
  destruct (eat_sym "[" r) as [r1|] eqn:B.
  - apply fine_sym in B. destruct r1 as [|[] r2]; try reflexivity. cbn [length] in B. destruct (eat_sym "]" r2) as [r3|] eqn:C; cbn [need bind]; [|reflexivity].
    apply fine_sym in C. match goal with |- context [p_type_suffix n ?u r3] => specialize (IH u r3 ltac:(lia)) end. destruct (p_type_suffix n _ r3) as [[u v]|]; [lia|exact IH].
  - specialize (IH (PTArraySuffix t None) r ltac:(lia)). destruct (p_type_suffix n _ r) as [[u v]|]; [lia|exact IH].
Qed.

Ltac step := match goal with
  | |- context [eat_sym ?k ?ts] => let E := fresh "E" in destruct (eat_sym k ts) eqn:E; [apply fine_sym in E|]; cbn [need bind orelse]
  | |- context [eat_kw ?k ?ts] => let E := fresh "E" in destruct (eat_kw k ts) eqn:E; [apply fine_eat in E|]; cbn [need bind orelse]
  end.
Ltac use H := let F := fresh "F" in pose proof H as F; match type of F with fine _ ?t => destruct t as [[? ?]|] eqn:?; cbn [fine] in F; [|subst] end; cbn [need bind orelse].
Ltac done := try reflexivity; try (cbn [fine length] in *; lia).
Lemma fine_all n : forall ts,
  (8 * length ts + 3 <= n -> fine ts (p_type n ts)) /\
  (8 * length ts + 2 <= n -> fine ts (p_type_prim n ts)) /\
  (8 * length ts + 1 <= n -> fine ts (p_generic n ts)) /\
  (8 * length ts + 4 <= n -> fine ts (p_typeparam n ts)) /\
  (8 * length ts + 5 <= n -> fine ts (p_typeparams n ts)) /\
  (8 * length ts + 4 <= n -> fine ts (p_rowfield n ts)) /\
  (8 * length ts + 5 <= n -> fine ts (p_rowfields n ts)).
Proof.
  induction n as [|n IH]; [intro ts; repeat split; lia|].
  assert (I1 : forall ts, 8 * length ts + 3 <= n -> fine ts (p_type n ts)) by (intro ts; apply IH).
  assert (I2 : forall ts, 8 * length ts + 2 <= n -> fine ts (p_type_prim n ts)) by (intro ts; apply IH).
  assert (I3 : forall ts, 8 * length ts + 1 <= n -> fine ts (p_generic n ts)) by (intro ts; apply IH).
  assert (I4 : forall ts, 8 * length ts + 4 <= n -> fine ts (p_typeparam n ts)) by (intro ts; apply IH).
  assert (I5 : forall ts, 8 * length ts + 5 <= n -> fine ts (p_typeparams n ts)) by (intro ts; apply IH).
  assert (I6 : forall ts, 8 * length ts + 4 <= n -> fine ts (p_rowfield n ts)) by (intro ts; apply IH).
  assert (I7 : forall ts, 8 * length ts + 5 <= n -> fine ts (p_rowfields n ts)) by (intro ts; apply IH).
  clear IH. intro ts. repeat split; intro H.
  - cbn [p_type]. use (I2 ts ltac:(lia)); [|done]. pose proof (fine_suffix n p l ltac:(lia)) as X. destruct (p_type_suffix n p l) as [[u v]|]; cbn [fine]; [lia|exact X].
  - cbn [p_type_prim]. pose proof (I3 ts ltac:(lia)) as G. destruct ts as [|[] r]; try exact G. cbn [length] in H.
    destruct (k =? "ROW").
    { step; [|exact G]. use (I7 l ltac:(lia)); [|exact G]. step; [done|exact G]. }
    destruct (k =? "INTERVAL").
    { pose proof (fine_field r) as F. destruct (p_interval_field r) as [[f r1]|]; [|exact G]. cbn [fine] in F. step; [|done].
      use (fine_field l); done. }
    destruct (_ || _)%bool.
    { step.
      - use (I4 l ltac:(lia)); [|done]. step; [|done]. pose proof (fine_zone l1) as Z. destruct (p_zone l1) as [[z r2]|]; cbn [bind fine length]; [lia|exact Z].
      - pose proof (fine_zone r) as Z. destruct (p_zone r) as [[z r2]|]; cbn [bind fine length]; [lia|exact Z]. }
    destruct (k =? "DOUBLE"). { step; [done|exact G]. }
    destruct (k =? "ARRAY"). { step; [|exact G]. use (I1 l ltac:(lia)); [|done]. step; done. }
    destruct (k =? "MAP"); [|exact G].
    step; [|exact G]. use (I1 l ltac:(lia)); [|done]. step; [|done]. use (I1 l1 ltac:(lia)); [|done]. step; done.
  - cbn [p_generic]. use (fine_ident ts); [|done]. step; [|done]. use (I5 l0 ltac:(lia)); [|done]. step; done.
  - cbn [p_typeparam]. assert (T : fine ts (let* (t, r) := p_type n ts in Ok (PPType t, r))) by (use (I1 ts ltac:(lia)); done).
    destruct ts as [|[] r]; try exact T. done.
  - cbn [p_typeparams]. use (I4 ts ltac:(lia)); [|done]. step; [|done]. use (I5 l0 ltac:(lia)); done.
  - cbn [p_rowfield].
    assert (T : fine ts (let* (i, r) := p_ident ts in let* (t, r2) := p_type n r in Ok (PRowField (Some i) t, r2)))
      by (use (fine_ident ts); [|done]; use (I1 l ltac:(lia)); done).
    use (I1 ts ltac:(lia)); [|exact T]. destruct (eat_sym "," l), (eat_sym ")" l); cbn [orelse]; try exact T; done.
  - cbn [p_rowfields]. use (I6 ts ltac:(lia)); [|done]. step; [|done]. use (I7 l0 ltac:(lia)); done.
Qed.

(** * Visiting *)
(** What the visitors of types raise (convert.py 492-608). *)
Definition raised (e : exn) : Prop := e = AssertionError \/ e = NotImplementedError.
Lemma mk_raises name ps e : mk_datatype name ps = Err e -> raised e.
Proof. intro H. pose proof (C01_constructor name ps) as C. rewrite H in C. left. apply C. Qed.
Lemma assert_raises b e : py_assert b = Err e -> raised e.
Proof. unfold py_assert. destruct b; intros [=]. now left. Qed.
Lemma ident_raises i e : visit_ident i = Err e -> raised e.
Proof. destruct i; intros [=]; now right. Qed.
Ltac unb H := match type of H with
  | bind ?r _ = Err _ => let E := fresh "E" in destruct r eqn:E; cbn [bind] in H; [|injection H as ->]
  end.
Fixpoint visit_raises (t : ptype) : forall e, visit_type t = Err e -> raised e
with param_raises (p : ptparam) : forall e, visit_typeparam p = Err e -> raised e
with field_raises (f : prowfield) : forall e, visit_rowfield f = Err e -> raised e.
Proof.
  - destruct t as [fs|f to|ts p z| |t|k v|t size|i ps]; intros e H; cbn [visit_type] in H.
    + unb H; [now apply mk_raises in H|]. revert E. generalize e. induction fs as [|f fs IHf]; intros e' E; [discriminate E|].
      unb E; [|now apply (field_raises f)]. unb E; [discriminate E|]. now apply IHf.
    + now apply mk_raises in H.
    + unb H; [now apply mk_raises in H|]. destruct p as [p|]; [|discriminate E]. unb E; [discriminate E|]. now apply (param_raises p).
    + now apply mk_raises in H.
    + injection H as <-. now right.
    + injection H as <-. now right.
    + unb H; [|now apply assert_raises in E]. unb H; [now apply mk_raises in H|]. now apply (visit_raises t).
    + unb H.
      * unb H; [now apply mk_raises in H|now apply ident_raises in E0].
      * revert E. generalize e. induction ps as [|p ps IHp]; intros e' E; [discriminate E|].
        unb E; [|now apply (param_raises p)]. unb E; [discriminate E|]. now apply IHp.
  - destruct p as [txt|t]; intros e H; cbn [visit_typeparam] in H; [discriminate H|]. unb H; [discriminate H|]. now apply (visit_raises t).
  - destruct f as [i t]; intros e H; cbn [visit_rowfield] in H. unb H; [now apply (visit_raises t)|now apply assert_raises in E].
Qed.

(** * The property *)
(** Parsing a type ends with a type or a syntax error: the bound on the depth of the
    recursion is never met. *)
Theorem C78_parses : forall ts, match p_standalone_type ts with Ok _ => True | Err e => e = SyntaxErr end.
Proof.
  intro ts. unfold p_standalone_type. destruct (fine_all (type_fuel ts) ts) as (F & _). specialize (F ltac:(unfold type_fuel; lia)).
  destruct (p_type (type_fuel ts) ts) as [[t [|k r]]|e]; cbn [bind]; [exact Logic.I|reflexivity|exact F].
Qed.
Print Assumptions C78_parses.
Theorem C78_raises : forall s e, type_from_sql s = Err e -> In e [SyntaxErr; AssertionError; NotImplementedError].
Proof.
  intros s e H. unfold type_from_sql in H. pose proof (C78_parses (lex s)) as P. destruct (p_standalone_type (lex s)) as [t|x]; cbn [bind] in H.
  - apply visit_raises in H as [->| ->]; cbn; auto.
  - injection H as <-. subst. now left.
Qed.
Print Assumptions C78_raises.
(** All three are raised. *)
Example C78_case : map type_from_sql ["ARRAY("; "DECIMAL(39)"; "MAP<INTEGER, INTEGER>"; "`a`"; "DECIMAL(DATE)"; "TIME(-1)"; "INTERVAL YEAR"]
  = map (@Err rawdt) [SyntaxErr; AssertionError; NotImplementedError; NotImplementedError; AssertionError; SyntaxErr; AssertionError].
Proof. vm_compute. reflexivity. Qed.
