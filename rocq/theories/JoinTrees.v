(** Join trees as a type of their own, embedded in the relation objects. *)
From Coq Require Import String Ascii List ZArith NArith Bool Arith Lia.
From Verif Require Import PyStr StrFacts Printer Types TypeFacts Conversions Inference Lexer LexFacts TypeParser Functions Ast Sql
  Tokens SqlReads Parser ParseParts ParseExpr ParseRel ParseQuery Good GoodFacts TextFacts SmallTrees ClauseFacts.
Import ListNotations.
Open Scope nat_scope.
Open Scope string_scope.
Open Scope list_scope.

Inductive join_kind := KInner | KLeft | KRight | KFull.
Inductive jtree :=
| JTTable (n : string)
| JTOn (k : join_kind) (l r : jtree) (c : cond)
| JTUsing (k : join_kind) (l r : jtree) (first : string) (more : list string)
| JTNatural (k : join_kind) (l r : jtree)
| JTCross (l r : jtree).
Definition kind_type (k : join_kind) : join_type :=
  match k with KInner => JInner | KLeft => JLeft | KRight => JRight | KFull => JOuter end.
Fixpoint jtree_node (t : jtree) : node :=
  match t with
  | JTTable n => NTable n None None
  | JTOn k l r c => NJoin (jtree_node l) (jtree_node r) (kind_type k) false (Some (JOn (cond_node c)))
  | JTUsing k l r c cs => NJoin (jtree_node l) (jtree_node r) (kind_type k) false (Some (JUsing (c :: cs)))
  | JTNatural k l r => NJoin (jtree_node l) (jtree_node r) (kind_type k) true None
  | JTCross l r => NJoin (jtree_node l) (jtree_node r) JCross false None
  end.
Definition is_table (t : jtree) : Prop := match t with JTTable _ => True | _ => False end.
(** Names can be printed; the column names of USING, printed without quotes,
    are words. *)
Fixpoint jtree_names (t : jtree) : Prop :=
  match t with
  | JTTable n => name_ok n
  | JTOn _ l r c => jtree_names l /\ jtree_names r /\ cond_names c
  | JTUsing _ l r c cs => jtree_names l /\ jtree_names r /\ forallb plain (c :: cs) = true
  | JTNatural _ l r | JTCross l r => jtree_names l /\ jtree_names r
  end.
(** A join without criterion has a table on the right. *)
Fixpoint jtree_shape (t : jtree) : Prop :=
  match t with
  | JTTable _ => True
  | JTOn _ l r _ | JTUsing _ l r _ _ => jtree_shape l /\ jtree_shape r
  | JTNatural _ l r | JTCross l r => jtree_shape l /\ is_table r
  end.

Lemma jtree_rel t : is_rel (jtree_node t) = true.
Proof. now destruct t. Qed.
Lemma jtree_sub t : jtree_names t -> (let* _ := check (jtree_node t) in Ok tt) = Ok tt.
Proof.
  assert (C : forall c, cond_names c -> (let* _ := check (cond_node c) in Ok tt) = Ok tt).
  { intros c Hc. destruct (good_check bare_env [] _ (cond_good bare_env c Hc)) as [x ->]. reflexivity. }
  induction t as [n|k l IHl r IHr c|k l IHl r IHr c cs|k l IHl r IHr|l IHl r IHr]; cbn [jtree_names jtree_node].
  - reflexivity.
  - intros (Hl & Hr & Hc). cbn [check opt_ok jcrit_ok]. rewrite (IHl Hl). cbn [bind]. rewrite (IHr Hr). cbn [bind].
    rewrite (C c Hc). now destruct k.
  - intros (Hl & Hr & Hc). cbn [check opt_ok jcrit_ok]. rewrite (IHl Hl). cbn [bind]. rewrite (IHr Hr). cbn [bind].
    now destruct k.
  - intros (Hl & Hr). cbn [check opt_ok jcrit_ok]. rewrite (IHl Hl). cbn [bind]. rewrite (IHr Hr). cbn [bind].
    now destruct k.
  - intros (Hl & Hr). cbn [check opt_ok jcrit_ok]. rewrite (IHl Hl). cbn [bind]. now rewrite (IHr Hr).
Qed.
Lemma jtree_fine en t : jtree_names t -> jtree_shape t -> fine en (jtree_node t).
Proof.
  assert (P : forall cs, forallb plain cs = true -> forallb wordy cs = true).
  { intros cs H. rewrite forallb_forall in *. intros x Hx. now apply plain_wordy, H. }
  assert (CK : forall t, jtree_names t -> match check (jtree_node t) with Ok _ => true | Err _ => false end = true).
  { intros u Hu. pose proof (jtree_sub u Hu) as S. destruct (check (jtree_node u)); [reflexivity | discriminate]. }
  induction t as [n|k l IHl r IHr c|k l IHl r IHr c cs|k l IHl r IHr|l IHl r IHr]; intros N S; pose proof (CK _ N) as C;
    cbn [jtree_names jtree_shape jtree_node] in *.
  - apply table_fine; [exact N | exact I | exact I | congruence].
  - destruct N as (Nl & Nr & Nc), S as (Sl & Sr). destruct (IHl Nl Sl) as [Ll Gl], (IHr Nr Sr) as [Lr Gr].
    pose proof (cond_lexable c Nc) as Lc. pose proof (cond_good en c Nc) as Gc. split.
    + constructor; [reflexivity|]. cbn [kids jcrit_kids]. intros x [<-|[<-|[<-|[]]]]; auto.
    + constructor; [|cbn [kids jcrit_kids scope]; intros x [<-|[<-|[<-|[]]]]; auto].
      unfold good_here. rewrite C, !jtree_rel. cbn [crit_good andb negb]. rewrite cond_expr. now destruct k.
  - destruct N as (Nl & Nr & Nc), S as (Sl & Sr). destruct (IHl Nl Sl) as [Ll Gl], (IHr Nr Sr) as [Lr Gr]. split.
    + constructor; [exact (P _ Nc)|]. cbn [kids jcrit_kids]. intros x [<-|[<-|[]]]; auto.
    + constructor; [|cbn [kids jcrit_kids scope]; intros x [<-|[<-|[]]]; auto].
      unfold good_here. rewrite C, !jtree_rel. cbn [crit_good andb negb nonempty]. rewrite Nc. now destruct k.
  - destruct N as (Nl & Nr), S as (Sl & Sr). destruct r as [m| | | |]; try contradiction.
    destruct (IHl Nl Sl) as [Ll Gl], (IHr Nr I) as [Lr Gr]. split.
    + constructor; [reflexivity|]. cbn [kids]. intros x [<-|[<-|[]]]; auto.
    + constructor; [|cbn [kids scope]; intros x [<-|[<-|[]]]; auto].
      unfold good_here. rewrite C, !jtree_rel. now destruct k.
  - destruct N as (Nl & Nr), S as (Sl & Sr). destruct r as [m| | | |]; try contradiction.
    destruct (IHl Nl Sl) as [Ll Gl], (IHr Nr I) as [Lr Gr]. split.
    + constructor; [reflexivity|]. cbn [kids]. intros x [<-|[<-|[]]]; auto.
    + constructor; [|cbn [kids scope]; intros x [<-|[<-|[]]]; auto].
      unfold good_here. rewrite C, !jtree_rel. reflexivity.
Qed.
Lemma jtree_lexable t : jtree_names t -> lexable (jtree_node t).
Proof.
  assert (P : forall cs, forallb plain cs = true -> forallb wordy cs = true).
  { intros cs H. rewrite forallb_forall in *. intros x Hx. now apply plain_wordy, H. }
  induction t as [n|k l IHl r IHr c|k l IHl r IHr c cs|k l IHl r IHr|l IHl r IHr]; cbn [jtree_names jtree_node].
  - intro N. apply (table_fine bare_env n None None N I I). congruence.
  - intros (Nl & Nr & Nc). constructor; [reflexivity|]. cbn [kids jcrit_kids]. intros x [<-|[<-|[<-|[]]]]; auto.
    now apply cond_lexable.
  - intros (Nl & Nr & Nc). constructor; [exact (P _ Nc)|]. cbn [kids jcrit_kids]. intros x [<-|[<-|[]]]; auto.
  - intros (Nl & Nr). constructor; [reflexivity|]. cbn [kids]. intros x [<-|[<-|[]]]; auto.
  - intros (Nl & Nr). constructor; [reflexivity|]. cbn [kids]. intros x [<-|[<-|[]]]; auto.
Qed.
Lemma jtree_not_query t : is_query (jtree_node t) = false.
Proof. now destruct t. Qed.

(** What the grammar makes of a tree: a join without criterion takes only the
    leftmost table of its right side. *)
Fixpoint hang (f : jtree -> jtree) (t : jtree) : jtree :=
  match t with
  | JTTable n => f (JTTable n)
  | JTOn k l r c => JTOn k (hang f l) r c
  | JTUsing k l r c cs => JTUsing k (hang f l) r c cs
  | JTNatural k l r => JTNatural k (hang f l) r
  | JTCross l r => JTCross (hang f l) r
  end.
Fixpoint reread (t : jtree) : jtree :=
  match t with
  | JTTable n => JTTable n
  | JTOn k l r c => JTOn k (reread l) (reread r) c
  | JTUsing k l r c cs => JTUsing k (reread l) (reread r) c cs
  | JTNatural k l r => hang (JTNatural k (reread l)) (reread r)
  | JTCross l r => hang (JTCross (reread l)) (reread r)
  end.
Lemma hang_toks f p t :
  (forall n, toks (jtree_node (f (JTTable n))) = p ++ toks (jtree_node (JTTable n))) ->
  toks (jtree_node (hang f t)) = p ++ toks (jtree_node t).
Proof.
  intro H.
  assert (E : forall l r jt na c, toks (NJoin (jtree_node l) (jtree_node r) jt na c)
    = toks (jtree_node l) ++ (if na then [K "NATURAL"] else []) ++ join_toks jt ++ K "JOIN" ::
      toks (jtree_node r) ++ match c with None => [] | Some x => crit_toks toks x end).
  { intros l r jt na c. unfold toks. cbn [toks_n]. unfold rel_toks. now rewrite !jtree_not_query. }
  induction t as [n|k l IHl r IHr c|k l IHl r IHr c cs|k l IHl r IHr|l IHl r IHr]; [apply H|..];
    cbn [hang jtree_node]; rewrite !E, IHl, <- !app_assoc; reflexivity.
Qed.
Lemma reread_toks t : toks (jtree_node (reread t)) = toks (jtree_node t).
Proof.
  assert (E : forall l r jt na c, toks (NJoin (jtree_node l) (jtree_node r) jt na c)
    = toks (jtree_node l) ++ (if na then [K "NATURAL"] else []) ++ join_toks jt ++ K "JOIN" ::
      toks (jtree_node r) ++ match c with None => [] | Some x => crit_toks toks x end).
  { intros l r jt na c. unfold toks. cbn [toks_n]. unfold rel_toks. now rewrite !jtree_not_query. }
  induction t as [n|k l IHl r IHr c|k l IHl r IHr c cs|k l IHl r IHr|l IHl r IHr]; [reflexivity|..]; cbn [reread].
  - cbn [jtree_node]. now rewrite !E, IHl, IHr.
  - cbn [jtree_node]. now rewrite !E, IHl, IHr.
  - rewrite (hang_toks _ (toks (jtree_node l) ++ [K "NATURAL"] ++ join_toks (kind_type k) ++ [K "JOIN"])).
    + cbn [jtree_node]. rewrite E, IHr, app_nil_r, <- !app_assoc. reflexivity.
    + intro n. cbn [jtree_node]. change (NTable n None None) with (jtree_node (JTTable n)).
      rewrite E, IHl, app_nil_r, <- !app_assoc. reflexivity.
  - rewrite (hang_toks _ (toks (jtree_node l) ++ join_toks JCross ++ [K "JOIN"])).
    + cbn [jtree_node]. rewrite E, IHr, app_nil_r, <- !app_assoc. reflexivity.
    + intro n. cbn [jtree_node]. change (NTable n None None) with (jtree_node (JTTable n)).
      rewrite E, IHl, app_nil_r, <- !app_assoc. reflexivity.
Qed.
Lemma hang_shape f t : (forall n, jtree_shape (f (JTTable n))) -> jtree_shape t -> jtree_shape (hang f t).
Proof. intro H. induction t; cbn [hang jtree_shape]; intuition. Qed.
Lemma reread_shape t : jtree_shape (reread t).
Proof.
  induction t; cbn [reread jtree_shape]; auto; apply hang_shape; auto; intro; cbn [jtree_shape is_table]; auto.
Qed.
Lemma hang_names f t : (forall n, name_ok n -> jtree_names (f (JTTable n))) -> jtree_names t -> jtree_names (hang f t).
Proof. intro H. induction t; cbn [hang jtree_names]; intuition. Qed.
Lemma reread_names t : jtree_names t -> jtree_names (reread t).
Proof.
  induction t; cbn [reread jtree_names]; intuition; apply hang_names; auto; intros; cbn [jtree_names]; auto.
Qed.
Lemma reread_same t : jtree_shape t -> reread t = t.
Proof.
  induction t as [n|k l IHl r IHr c|k l IHl r IHr c cs|k l IHl r IHr|l IHl r IHr]; cbn [reread jtree_shape].
  - reflexivity.
  - intros [A B]. now rewrite IHl, IHr.
  - intros [A B]. now rewrite IHl, IHr.
  - intros [A B]. destruct r; try contradiction. cbn [reread hang]. now rewrite IHl.
  - intros [A B]. destruct r; try contradiction. cbn [reread hang]. now rewrite IHl.
Qed.
(** The tables from left to right are the same. *)
Fixpoint tables (t : jtree) : list string :=
  match t with
  | JTTable n => [n]
  | JTOn _ l r _ | JTUsing _ l r _ _ | JTNatural _ l r | JTCross l r => tables l ++ tables r
  end.
