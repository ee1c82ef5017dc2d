(** C70: an object that was read has no name, number or text that the SQL text does not
    have, and none more often. *)
From Coq Require Import String List ZArith NArith Bool Arith Lia.
From Verif Require Import PyStr Types Inference Lexer TypeParser Functions Ast Walk Tokens NodeFacts Sql Parser Grammar Accepts
  PropertiesAccepts Atoms.
Import ListNotations.
Open Scope nat_scope.
Open Scope string_scope.
Open Scope list_scope.

Theorem C70_expression : forall en s e a, expression_from_sql en s = Ok e -> occ a e <= in_tokens a (lex s).
Proof. intros en s e a H. apply C63_expression in H. exact (means_atoms en a _ _ H). Qed.
Print Assumptions C70_expression.
Theorem C70_query : forall en s q a, query_from_sql en s = Ok q -> occ a q <= in_tokens a (lex s).
Proof.
  intros en s q a H. apply C63_query in H as (ts & rest & -> & M). apply (means_atoms en a) in M. cbn [held] in M.
  rewrite in_tokens_app. lia.
Qed.
Print Assumptions C70_query.

(** The same without counting: what is written in an object anywhere below the one that
    was read. *)
Inductive within (e : node) : node -> Prop :=
| within_self : within e e
| within_part x y : within e x -> In y (kids x) -> within e y.
(** A token that is the name. *)
Definition names (n : string) (t : token) : Prop :=
  t = TId n \/ (exists q, t = TQuoted q /\ strip dquote q = n) \/ exists k, t = TKw k n.
Definition written (x : node) (n : string) : Prop :=
  match x with
  | NField m t _ => n = m \/ t = TRStr n
  | NStar t _ => t = TRStr n
  | NAliased _ m | NVar m => n = m
  | NAliasedStar _ l | NLambda l _ => In n l
  | NTable m s c => n = m \/ s = Some n \/ c = Some n
  | NAliasedRel _ m l => n = m \/ In n l
  | NJoin _ _ _ _ (Some (JUsing l)) => In n l
  | NSelect _ _ _ _ _ _ ws _ => In n (map fst ws)
  | _ => False
  end.

Lemma occs_in a l x : In x l -> occ a x <= occs a l.
Proof. induction l as [|y l IH]; [intros []|]. intros [->|I]; rewrite occs_cons; [lia|]. apply IH in I. lia. Qed.
Lemma occ_within a e x : within e x -> own a x <= occ a e.
Proof.
  intro W. assert (H : occ a x <= occ a e).
  { induction W as [|x y W IH I]; [lia|]. rewrite (occ_step a x) in IH. pose proof (occs_in a _ _ I). lia. }
  rewrite occ_step in H. lia.
Qed.
Lemma same_self a : same a a = 1.
Proof. destruct a; cbn [same]; now rewrite ?String.eqb_refl, ?N.eqb_refl. Qed.
Lemma in_names_in n l : In n l -> 1 <= in_names (AName n) l.
Proof.
  induction l as [|m l IH]; [intros []|]. intros [->|I]; rewrite in_names_cons; [rewrite same_self; lia|]. apply IH in I. lia.
Qed.
Lemma written_own x n : written x n -> 1 <= own (AName n) x.
Proof.
  destruct x; cbn [written own]; try tauto.
  - intros [->| ->]; cbn [own_tref]; rewrite same_self; lia.
  - intros ->. rewrite same_self. lia.
  - intros ->. cbn [own_tref]. rewrite same_self. lia.
  - apply in_names_in.
  - intros ->. rewrite same_self. lia.
  - apply in_names_in.
  - intro I. apply in_map_iff in I as ([m w] & E & I). cbn [fst] in E. subst m. induction windows as [|y ws IH]; [destruct I|].
    cbn [map]. unfold list_sum in *. cbn [fold_right]. destruct I as [->|I]; [cbn [fst]; rewrite same_self; lia|]. specialize (IH I). lia.
  - intros [->|[->| ->]]; cbn [in_name]; rewrite same_self; lia.
  - intros [->|I]; [rewrite same_self; lia|]. apply in_names_in in I. lia.
  - destruct crit as [[l|]|]; try tauto. apply in_names_in.
Qed.
Lemma token_in a ts : 1 <= in_tokens a ts -> exists t, In t ts /\ 1 <= in_token a t.
Proof.
  induction ts as [|t ts IH]; [rewrite in_tokens_nil; lia|]. rewrite in_tokens_cons. intro H.
  destruct (Nat.eq_dec (in_token a t) 0) as [E|E]; [|exists t; split; [now left|lia]].
  destruct IH as (u & I & U); [lia|]. exists u. split; [now right|exact U].
Qed.
Lemma same_name n m : 1 <= same (AName n) (AName m) -> n = m.
Proof. cbn [same]. destruct (String.eqb_spec n m); [auto|lia]. Qed.
Lemma token_name n t : 1 <= in_token (AName n) t -> names n t.
Proof.
  unfold names. destruct t; cbn [in_token]; try (cbn [same]; lia); intro H; apply same_name in H; subst; eauto 6.
Qed.
Theorem C70_names : forall en s e x n, (expression_from_sql en s = Ok e \/ query_from_sql en s = Ok e) ->
  within e x -> written x n -> exists t, In t (lex s) /\ names n t.
Proof.
  intros en s e x n R W N. apply written_own in N. apply (occ_within (AName n)) in W.
  assert (B : occ (AName n) e <= in_tokens (AName n) (lex s)) by (destruct R; eauto using C70_expression, C70_query).
  destruct (token_in (AName n) (lex s)) as (t & I & T); [lia|]. exists t. split; [exact I|now apply token_name].
Qed.
Print Assumptions C70_names.
(** Integers have their digits in the text, texts their quotation marks. *)
Theorem C70_integers : forall en s e z ty, (expression_from_sql en s = Ok e \/ query_from_sql en s = Ok e) ->
  within e (NLit (LInt z) ty) -> exists ds, In (TInt ds) (lex s) /\ Z.abs z = Z.of_N (digits 0 ds).
Proof.
  intros en s e z ty R W. apply (occ_within (AInt (Z.abs_N z))) in W. cbn [own in_lit] in W. rewrite same_self in W.
  assert (B : occ (AInt (Z.abs_N z)) e <= in_tokens (AInt (Z.abs_N z)) (lex s)) by (destruct R; eauto using C70_expression, C70_query).
  destruct (token_in (AInt (Z.abs_N z)) (lex s)) as (t & I & T); [lia|].
  destruct t as [| | | | | | | |ds| | | |]; cbn [in_token same] in T; try lia. exists ds. split; [exact I|].
  destruct (N.eqb_spec (Z.abs_N z) (digits 0 ds)); lia.
Qed.
Print Assumptions C70_integers.
Theorem C70_texts : forall en s e v ty, (expression_from_sql en s = Ok e \/ query_from_sql en s = Ok e) ->
  within e (NLit (LStr v) ty) -> exists t, In t (lex s) /\ ((exists q, t = TString q /\ strip squote q = v) \/ exists u, t = TUniString u).
Proof.
  intros en s e v ty R W. apply (occ_within (AText v)) in W. cbn [own in_lit] in W. rewrite same_self in W.
  assert (B : occ (AText v) e <= in_tokens (AText v) (lex s)) by (destruct R; eauto using C70_expression, C70_query).
  destruct (token_in (AText v) (lex s)) as (t & I & T); [lia|]. exists t. split; [exact I|].
  destruct t; cbn [in_token same] in T; try lia; [|eauto]. left. eexists. split; [reflexivity|].
  match type of T with context [String.eqb v ?w] => destruct (String.eqb_spec v w); [now subst|lia] end.
Qed.
Print Assumptions C70_texts.

(** * Cases *)
Local Definition text_of_case := "WITH r AS (SELECT x.a, 'v' FROM s.x) SELECT a, -5 AS b, NULLIF(c, a -> a + 5) FROM r JOIN ""q"" USING (a) LIMIT 5".
Example C70_case :
  match query_from_sql full_env text_of_case with
  | Ok q => map (fun a => (occ a q, in_tokens a (lex text_of_case)))
              [AName "a"; AName "b"; AName "x"; AName "q"; AName "z"; AInt 5; AText "v"; AText "a"]
            = [(5, 5); (1, 1); (2, 2); (1, 1); (0, 0); (3, 3); (1, 1); (0, 0)]
  | Err _ => False
  end.
Proof. vm_compute. reflexivity. Qed.
(** What the object has may be less: parts without a visitor vanish. *)
Theorem C70_equal_refuted : ~ (forall en s q a, query_from_sql en s = Ok q -> occ a q = in_tokens a (lex s)).
Proof.
  intro H. pose (s := "SELECT a FROM t WHERE EXISTS (SELECT b FROM u)").
  destruct (query_from_sql full_env s) as [q|] eqn:Q; [|vm_compute in Q; discriminate Q].
  specialize (H full_env s q (AName "b") Q). vm_compute in Q. injection Q as <-. vm_compute in H. discriminate H.
Qed.
Print Assumptions C70_equal_refuted.
