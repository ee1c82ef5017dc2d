(** Two small tree types of their own, arithmetic and conditions, embedded in
    the expression objects: every such tree is in the fragment of Good.v,
    whatever its shape. *)
From Coq Require Import String Ascii List ZArith NArith Bool Arith Lia.
From Verif Require Import PyStr StrFacts Printer Types TypeFacts Conversions Inference Lexer LexFacts TypeParser Functions Ast Sql
  Tokens SqlReads Parser ParseRel ParseQuery Good TextFacts.
Import ListNotations.
Open Scope nat_scope.
Open Scope string_scope.
Open Scope list_scope.

(** A name that can be printed in double quotes. *)
Definition name_ok (n : string) : Prop :=
  doubled dquote n /\ no_edge dquote n /\ str_exists is_break n = false.

Inductive arith_op := OAdd | OSub | OMul | ODiv | OMod.
Inductive arith :=
| AColumn (n : string)
| AInteger (z : Z)
| ABinary (op : arith_op) (a b : arith).
Inductive cmp_op := OEq | ONe | OLt | OLe | OGt | OGe | ODistinct.
Inductive cond :=
| CCompare (op : cmp_op) (a b : arith)
| CIsNull (a : arith)
| CBetween (a b c : arith)
| CIn (a : arith) (first : arith) (more : list arith)
| CAnd (a b : cond)
| COr (a b : cond)
| CNot (a : cond).

Definition arith_binop (o : arith_op) : binop :=
  match o with OAdd => BAdd | OSub => BMinus | OMul => BMul | ODiv => BDiv | OMod => BMod end.
Definition cmp_binop (o : cmp_op) : binop :=
  match o with
  | OEq => BEq | ONe => BNe | OLt => BLt | OLe => BLe | OGt => BGt | OGe => BGe | ODistinct => BDistinct
  end.
(** The object with this tree; integers have the type the constructor infers. *)
Fixpoint arith_node (a : arith) : node :=
  match a with
  | AColumn n => NField n TRNone unknown
  | AInteger z => NLit (LInt z) (infer_integral z)
  | ABinary op a b => NBin (arith_binop op) (arith_node a) (arith_node b)
  end.
Fixpoint cond_node (c : cond) : node :=
  match c with
  | CCompare op a b => NBin (cmp_binop op) (arith_node a) (arith_node b)
  | CIsNull a => NUn UIsNull (arith_node a)
  | CBetween a b c => NBetween (arith_node a) (arith_node b) (arith_node c)
  | CIn a b l => NInList (arith_node a) (map arith_node (b :: l))
  | CAnd a b => NBin BAnd (cond_node a) (cond_node b)
  | COr a b => NBin BOr (cond_node a) (cond_node b)
  | CNot a => NUn UNot (cond_node a)
  end.
Fixpoint arith_names (a : arith) : Prop :=
  match a with
  | AColumn n => name_ok n
  | AInteger _ => True
  | ABinary _ a b => arith_names a /\ arith_names b
  end.
(** Names can be printed, and no equality is negated directly (NOT a = b is
    printed as a <> b and read as an inequality). *)
Fixpoint cond_names (c : cond) : Prop :=
  match c with
  | CCompare _ a b => arith_names a /\ arith_names b
  | CIsNull a => arith_names a
  | CBetween a b c => arith_names a /\ arith_names b /\ arith_names c
  | CIn a b l => arith_names a /\ Forall arith_names (b :: l)
  | CAnd a b | COr a b => cond_names a /\ cond_names b
  | CNot a => cond_names a /\ match a with CCompare (OEq | ONe) _ _ => False | _ => True end
  end.

(** * Types *)
Definition small (t : dtype) : Prop := t = unknown \/ t = integer \/ t = bigint.
Lemma small_arith op a b : small a -> small b -> exists t, binop_type (arith_binop op) a b = Ok t /\ small t.
Proof.
  intros [->|[->| ->]] [->|[->| ->]]; destruct op; vm_compute; eexists; (split; [reflexivity|]);
    unfold small; auto.
Qed.
Lemma arith_check a : exists t, check (arith_node a) = Ok (Some t) /\ small t.
Proof.
  induction a as [n|z|op a (ta & Ha & Sa) b (tb & Hb & Sb)].
  - exists unknown. split; [reflexivity | now left].
  - exists (infer_integral z). cbn [arith_node check]. unfold infer_integral.
    destruct (_ && _)%bool; (split; [reflexivity|]); unfold small; auto.
  - destruct (small_arith op ta tb Sa Sb) as (t & Ht & St). exists t. split; [|exact St].
    cbn [arith_node check]. rewrite Ha, Hb.
    assert (W : forall x r, wrapped (arith_node x) r = tyof r) by (intros []; reflexivity).
    rewrite !W. cbn [tyof bind]. rewrite Ht. reflexivity.
Qed.
Lemma arith_wrapped a : exists t, wrapped (arith_node a) (check (arith_node a)) = Ok t.
Proof.
  destruct (arith_check a) as (t & H & _). exists t. rewrite H. now destruct a.
Qed.
Lemma arith_expr a : is_expr (arith_node a) = true.
Proof. now destruct a. Qed.
Lemma arith_cat a : 6 <= cat (arith_node a).
Proof. destruct a as [| |op]; [cbn; lia..|]. destruct op; cbn; lia. Qed.
Lemma arith_prec a : prec (arith_node a) = None \/ exists p, prec (arith_node a) = Some p /\ 6 <= p.
Proof. destruct a as [| |op]; [now left..|]. right. destruct op; cbn; eauto. Qed.

Lemma arith_fits a cur left : fits 5 cur left (arith_node a) = true.
Proof.
  unfold fits. rewrite arith_expr. pose proof (arith_cat a).
  assert (E : (5 <=? cat (arith_node a))%nat = true) by (apply Nat.leb_le; lia). rewrite E. apply orb_true_r.
Qed.
Lemma arith_binop_fits op a b :
  fits (fst (needs (arith_binop op))) (binop_prec (arith_binop op)) true (arith_node a) = true
  /\ fits (snd (needs (arith_binop op))) (binop_prec (arith_binop op)) false (arith_node b) = true.
Proof.
  unfold fits. rewrite !arith_expr.
  split; destruct op; (destruct a as [| |oa]; [..|destruct oa]); (destruct b as [| |ob]; [..|destruct ob]); reflexivity.
Qed.

(** * In the fragment *)
Lemma arith_good en a : arith_names a -> good en [] (arith_node a).
Proof.
  induction a as [n|z|op a IHa b IHb]; intro H.
  - destruct H as (_ & E & _). apply inner_iff in E. constructor; [|intros x []].
    unfold good_here. cbn [arith_node check tref_ok bind py_assert mem existsb negb]. now rewrite E.
  - constructor; [|intros x []]. unfold good_here.
    destruct (arith_check (AInteger z)) as (t & T & _). rewrite T.
    cbn [arith_node]. unfold lit_good. cbn [lit_type]. now rewrite dtype_eqb_refl.
  - destruct H as [Ha Hb]. constructor.
    + unfold good_here. destruct (arith_check (ABinary op a b)) as (t & T & _). rewrite T.
      cbn [arith_node]. destruct (arith_binop_fits op a b) as [-> ->]. reflexivity.
    + intros x [<-|[<-|[]]]; cbn [scope]; auto.
Qed.
Lemma arith_lexable a : arith_names a -> lexable (arith_node a).
Proof.
  induction a as [n|z|op a IHa b IHb]; intro H.
  - destruct H as (D & _ & B). constructor; [|intros x []]. cbn [arith_node lex_here tref_lex].
    apply paired_doubled in D. unfold text_ok. now rewrite D, B.
  - constructor; [reflexivity|intros x []].
  - destruct H as [Ha Hb]. constructor; [reflexivity|]. intros x [<-|[<-|[]]]; auto.
Qed.

Lemma cond_expr c : is_expr (cond_node c) = true.
Proof. now destruct c. Qed.
Lemma cond_check c : check (cond_node c) = Ok (Some boolean).
Proof.
  assert (W : forall x r, wrapped (cond_node x) r = tyof r) by (intros []; reflexivity).
  induction c as [op a b|a|a b c|a b l|a IHa b IHb|a IHa b IHb|a IHa]; cbn [cond_node check].
  - destruct (arith_wrapped a) as [ta ->], (arith_wrapped b) as [tb ->]. cbn [bind]. now destruct op.
  - destruct (arith_wrapped a) as [ta ->]. reflexivity.
  - destruct (arith_wrapped a) as [ta ->], (arith_wrapped b) as [tb ->], (arith_wrapped c) as [tc ->]. reflexivity.
  - destruct (arith_wrapped a) as [ta ->]. cbn [bind].
    rewrite all_ok_ok; [reflexivity|]. intros x Hx. change (In x (map arith_node (b :: l))) in Hx.
    apply in_map_iff in Hx as (y & <- & _). destruct (arith_wrapped y) as [ty ->]. reflexivity.
  - rewrite !W, IHa, IHb. reflexivity.
  - rewrite !W, IHa, IHb. reflexivity.
  - rewrite W, IHa. reflexivity.
Qed.
Lemma arith_binop_not op : match arith_binop op with BDistinct | BEq | BNe => False | _ => True end.
Proof. now destruct op. Qed.
(** What kind of operand a condition is. *)
Lemma cond_kind c :
  (cat (cond_node c) = 4 /\ (forall p, prec (cond_node c) = Some p -> 2 <= p))
  \/ (cat (cond_node c) = 3 /\ prec (cond_node c) = Some 2)
  \/ (cat (cond_node c) = 2 /\ prec (cond_node c) = Some 1)
  \/ (cat (cond_node c) = 1 /\ prec (cond_node c) = Some 0).
Proof.
  destruct c as [op a b|a|a b c|a b l|a b|a b|a]; cbn [cond_node cat prec unop_prec].
  - left. split; [now destruct op|]. destruct op; cbn; intros p [=]; lia.
  - left. split; [reflexivity|]. intros p [= <-]. lia.
  - left. split; [reflexivity|]. intros p [= <-]. lia.
  - left. split; [reflexivity|]. intros p [= <-]. lia.
  - auto.
  - auto.
  - destruct (negatable (cond_node a)); [left | right; left; auto].
    split; [reflexivity|]. intros p [= <-]. lia.
Qed.
Ltac kinds :=
  unfold fits, needs_parens; rewrite ?cond_expr;
  repeat match goal with
  | |- context [cond_node ?c] =>
      destruct (cond_kind c) as [[-> P]|[[-> ->]|[[-> ->]|[-> ->]]]];
      [destruct (prec (cond_node c)) as [p|]; [specialize (P p eq_refl)|]|..]
  end.
Lemma cond_and_fits a b : fits 2 (Some 1) true (cond_node a) = true /\ fits 3 (Some 1) false (cond_node b) = true.
Proof.
  split; kinds; try reflexivity;
    cbn [andb negb]; apply orb_true_iff; right; reflexivity.
Qed.
Lemma cond_or_fits a b : fits 1 (Some 0) true (cond_node a) = true /\ fits 2 (Some 0) false (cond_node b) = true.
Proof. split; kinds; try reflexivity; cbn [andb negb]; apply orb_true_iff; right; reflexivity. Qed.
Lemma cond_not_fits a : fits 3 (Some 2) true (cond_node a) = true.
Proof. kinds; try reflexivity; cbn [andb negb]; apply orb_true_iff; right; reflexivity. Qed.

Lemma cond_good en c : cond_names c -> good en [] (cond_node c).
Proof.
  induction c as [op a b|a|a b c|a b l|a IHa b IHb|a IHa b IHb|a IHa]; intro H.
  - destruct H as [Ha Hb]. constructor.
    + unfold good_here. rewrite (cond_check (CCompare op a b)). cbn [cond_node].
      assert (N : needs (cmp_binop op) = (5, 5)) by now destruct op.
      rewrite N. cbn [fst snd]. rewrite !arith_fits. reflexivity.
    + intros x [<-|[<-|[]]]; cbn [scope]; now apply arith_good.
  - constructor.
    + unfold good_here. rewrite (cond_check (CIsNull a)). cbn [cond_node]. now rewrite arith_fits.
    + intros x [<-|[]]; cbn [scope]; now apply arith_good.
  - destruct H as (Ha & Hb & Hc). constructor.
    + unfold good_here. rewrite (cond_check (CBetween a b c)). cbn [cond_node]. now rewrite !arith_fits.
    + intros x [<-|[<-|[<-|[]]]]; cbn [scope]; now apply arith_good.
  - destruct H as [Ha Hl]. constructor.
    + unfold good_here. rewrite (cond_check (CIn a b l)). cbn [cond_node]. rewrite arith_fits.
      cbn [map nonempty andb forallb]. rewrite arith_expr. cbn [andb].
      apply forallb_forall. intros x Hx. apply in_map_iff in Hx as (y & <- & _). apply arith_expr.
    + cbn [cond_node kids scope]. intros x [<-|Hx]; [now apply arith_good|].
      apply in_map_iff in Hx as (y & <- & Hy). apply arith_good. rewrite Forall_forall in Hl. now apply Hl.
  - destruct H as [Ha Hb]. constructor.
    + unfold good_here. rewrite (cond_check (CAnd a b)). cbn [cond_node needs fst snd binop_prec].
      destruct (cond_and_fits a b) as [-> ->]. reflexivity.
    + intros x [<-|[<-|[]]]; cbn [scope]; auto.
  - destruct H as [Ha Hb]. constructor.
    + unfold good_here. rewrite (cond_check (COr a b)). cbn [cond_node needs fst snd binop_prec].
      destruct (cond_or_fits a b) as [-> ->]. reflexivity.
    + intros x [<-|[<-|[]]]; cbn [scope]; auto.
  - destruct H as [Ha Hn]. constructor.
    + unfold good_here. rewrite (cond_check (CNot a)). cbn [cond_node].
      destruct (negatable (cond_node a)) eqn:N; [|now rewrite cond_not_fits].
      destruct a as [op x y| | | | | |]; try reflexivity; [now destruct op|discriminate N..].
    + intros x [<-|[]]; cbn [scope]; auto.
Qed.
Lemma cond_lexable c : cond_names c -> lexable (cond_node c).
Proof.
  induction c as [op a b|a|a b c|a b l|a IHa b IHb|a IHa b IHb|a IHa]; intro H.
  - destruct H. constructor; [reflexivity|]. intros x [<-|[<-|[]]]; now apply arith_lexable.
  - constructor; [reflexivity|]. intros x [<-|[]]; now apply arith_lexable.
  - destruct H as (? & ? & ?). constructor; [reflexivity|]. intros x [<-|[<-|[<-|[]]]]; now apply arith_lexable.
  - destruct H as [? Hl]. constructor; [reflexivity|]. cbn [cond_node kids].
    intros x [<-|Hx]; [now apply arith_lexable|].
    apply in_map_iff in Hx as (y & <- & Hy). apply arith_lexable. rewrite Forall_forall in Hl. now apply Hl.
  - destruct H. constructor; [reflexivity|]. intros x [<-|[<-|[]]]; auto.
  - destruct H. constructor; [reflexivity|]. intros x [<-|[<-|[]]]; auto.
  - destruct H. constructor; [reflexivity|]. intros x [<-|[]]; auto.
Qed.
