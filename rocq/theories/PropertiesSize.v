(** C76: an object that was read has no more objects in it than the text has tokens, so
    reading cannot make a short text into a large or deep object. *)
From Coq Require Import String List ZArith NArith Bool Arith Lia.
From Verif Require Import PyStr Types Inference Lexer TypeParser Functions Ast Walk Tokens NodeFacts Sql Parser Grammar Accepts
  PropertiesAccepts Size.
Import ListNotations.
Open Scope nat_scope.
Open Scope string_scope.
Open Scope list_scope.

Theorem C76_expression : forall en s e, expression_from_sql en s = Ok e -> size e <= length (lex s).
Proof. intros en s e H. apply C63_expression in H. exact (means_size en _ _ H). Qed.
Print Assumptions C76_expression.
Theorem C76_query : forall en s q, query_from_sql en s = Ok q -> size q <= length (lex s).
Proof.
  intros en s q H. apply C63_query in H as (ts & rest & -> & M). apply (means_size en) in M. cbn [held] in M.
  rewrite app_length. lia.
Qed.
Print Assumptions C76_query.

(** The same for depth, without [size]: a way down from one object to a part of it, a part
    of that part and so on, takes fewer steps than the text has tokens. *)
Inductive below : nat -> node -> node -> Prop :=
| below_self e : below 0 e e
| below_part n e x y : In x (kids e) -> below n x y -> below (Datatypes.S n) e y.
Lemma sizes_in l x : In x l -> size x <= sizes l.
Proof. induction l as [|y l IH]; [intros []|]. intros [->|I]; rewrite sizes_cons; [lia|]. apply IH in I. lia. Qed.
Lemma below_size n e x : below n e x -> n + size x <= size e.
Proof. induction 1 as [e|n e x y I B IH]; [lia|]. rewrite (size_step e). pose proof (sizes_in _ _ I). lia. Qed.
Lemma size_pos e : 1 <= size e.
Proof. rewrite size_step. lia. Qed.
Theorem C76_depth_expression : forall en s e n x, expression_from_sql en s = Ok e -> below n e x -> n < length (lex s).
Proof.
  intros en s e n x H B. apply C76_expression in H. apply below_size in B. pose proof (size_pos x). lia.
Qed.
Print Assumptions C76_depth_expression.
Theorem C76_depth_query : forall en s q n x, query_from_sql en s = Ok q -> below n q x -> n < length (lex s).
Proof.
  intros en s q n x H B. apply C76_query in H. apply below_size in B. pose proof (size_pos x). lia.
Qed.
Print Assumptions C76_depth_query.

(** The same without tokens: no more objects than the text has characters. *)
Lemma lex_length s : length (lex s) <= String.length s.
Proof.
  unfold lex. assert (G : forall n t, length (lex_fuel n t) <= n); [|apply G].
  induction n as [|n IH]; intro t; cbn [lex_fuel]; [apply le_n|]. destruct t as [|c t]; [apply Nat.le_0_l|].
  destruct (next_token c t) as [[k|] r]; cbn [length]; specialize (IH r); lia.
Qed.
Theorem C76_characters : forall en s e, expression_from_sql en s = Ok e \/ query_from_sql en s = Ok e -> size e <= String.length s.
Proof.
  intros en s e H. pose proof (lex_length s). destruct H as [H|H]; [apply C76_expression in H|apply C76_query in H]; lia.
Qed.
Print Assumptions C76_characters.

(** The bound is reached: operators and NOT make one object of one token.  Parentheses and
    keywords make none. *)
Definition size_read (r : result node) : option nat := match r with Ok e => Some (size e) | _ => None end.
Example C76_case_reached :
  size_read (expression_from_sql full_env "NOT x AND y NOT BETWEEN 1 AND -2") = Some 8 /\
  length (lex "NOT x AND y NOT BETWEEN 1 AND -2") = 10 /\
  size_read (expression_from_sql full_env "NOT x + 1 * y = z") = Some 8 /\ length (lex "NOT x + 1 * y = z") = 8.
Proof. vm_compute. repeat split. Qed.
Example C76_case_query :
  size_read (query_from_sql full_env "WITH w AS (SELECT a.*, (b) || 'c' FROM a) SELECT count(*) FROM w WHERE x IS NOT NULL ORDER BY y") = Some 15
  /\ length (lex "WITH w AS (SELECT a.*, (b) || 'c' FROM a) SELECT count(*) FROM w WHERE x IS NOT NULL ORDER BY y") = 32.
Proof. vm_compute. repeat split. Qed.
(** A way down of 3 steps in an object read from 4 tokens. *)
Example C76_case_depth : exists e x, expression_from_sql full_env "NOT NOT NOT x" = Ok e /\ below 3 e x /\ length (lex "NOT NOT NOT x") = 4.
Proof.
  eexists _, _. split; [vm_compute; reflexivity|]. split; [|vm_compute; reflexivity].
  repeat (eapply below_part; [cbn; left; reflexivity|]). apply below_self.
Qed.
Example C76_case_characters : size_read (expression_from_sql full_env "a+b*c") = Some 5 /\ String.length "a+b*c" = 5.
Proof. vm_compute. repeat split. Qed.
