(** C72: what a table remembers of the schemas it was resolved with. *)
From Coq Require Import String List ZArith Bool Arith Lia.
From Verif Require Import PyStr Types Inference Functions Ast Walk Schema TableState.
Import ListNotations.
Open Scope nat_scope.
Open Scope string_scope.
Open Scope list_scope.

(** * Specification: from what was done, without the store *)
(** The tables in the order in which they were made. *)
Definition made (h : list action) : list (string * option nat) :=
  concat (map (fun a => match a with Create n src => [(n, src)] | Ask _ _ => [] end) h).
(** Only tables that exist are resolved, and only schema objects that exist are used. *)
Fixpoint legal (g k : nat) (h : list action) : Prop :=
  match h with
  | [] => True
  | Create _ src :: r => (forall i, src = Some i -> i < g) /\ legal g (S k) r
  | Ask t _ :: r => t < k /\ legal g k r
  end.
(** The last schema that table [t] was resolved with and that has its name. *)
Fixpoint last_known (n : string) (t : nat) (h : list action) : option schema :=
  match h with
  | [] => None
  | Create _ _ :: r => last_known n t r
  | Ask t' sc :: r =>
      match last_known n t r with
      | Some s => Some s
      | None => if (Nat.eqb t t' && mem n (s_ids sc))%bool then Some sc else None
      end
  end.
Definition columns_of (n : string) (sc : schema) : list sfield := filter (from_table n) (s_fields sc).

(** * Lemmas *)
Lemma set_nth_length {A} i (x : A) l : length (set_nth i x l) = length l.
Proof. revert i. induction l as [|a l IH]; intros [|i]; cbn [set_nth length]; auto. Qed.
Lemma set_nth_same {A} i (x : A) l : i < length l -> nth_error (set_nth i x l) i = Some x.
Proof. revert i. induction l as [|a l IH]; intros [|i] H; cbn [set_nth length nth_error] in *; try lia; [reflexivity|]. apply IH. lia. Qed.
Lemma set_nth_other {A} i j (x : A) l : i <> j -> nth_error (set_nth i x l) j = nth_error l j.
Proof.
  revert i j. induction l as [|a l IH]; intros [|i] [|j] H; cbn [set_nth nth_error]; try reflexivity; [contradiction|]. apply IH. lia.
Qed.
Lemma made_snoc h a : made (h ++ [a]) = made h ++ match a with Create n src => [(n, src)] | Ask _ _ => [] end.
Proof. unfold made. rewrite map_app, concat_app. cbn [map concat]. now rewrite app_nil_r. Qed.
Lemma legal_snoc g k h a : legal g k (h ++ [a]) <-> legal g k h /\ legal g (k + length (made h)) [a].
Proof.
  revert k. induction h as [|b h IH]; intro k; cbn [app].
  - unfold made. cbn [map concat length]. rewrite Nat.add_0_r. cbn [legal]. tauto.
  - destruct b as [n src|t sc]; unfold made; cbn [legal map concat app length]; fold (made h); rewrite IH.
    + replace (S k + length (made h)) with (k + S (length (made h))) by lia. tauto.
    + tauto.
Qed.
Lemma known_snoc n t h a : last_known n t (h ++ [a]) =
  match a with
  | Ask t' sc => if (Nat.eqb t t' && mem n (s_ids sc))%bool then Some sc else last_known n t h
  | Create _ _ => last_known n t h
  end.
Proof.
  induction h as [|b h IH]; cbn [app last_known].
  - destruct a as [m src|t' sc]; [reflexivity|]. cbn [last_known]. now destruct (_ && _)%bool.
  - destruct b as [m src|u sd]; rewrite IH; [reflexivity|]. destruct a as [m src|t' sc]; [reflexivity|].
    now destruct (Nat.eqb t t' && mem n (s_ids sc))%bool.
Qed.
Lemma known_new n t k g h : legal g k h -> k + length (made h) <= t -> last_known n t h = None.
Proof.
  revert k. induction h as [|b h IH]; intros k L H; [reflexivity|].
  destruct b as [m src|u sd]; unfold made in H; cbn [legal last_known map concat app length] in *; fold (made h) in H; destruct L as [X L].
  - apply (IH (S k)); [exact L|lia].
  - rewrite (IH k L H). destruct (Nat.eqb_spec t u); [lia|reflexivity].
Qed.
Lemma run_snoc h a gs : run (h ++ [a]) gs = act (run h gs) a.
Proof. unfold run. now rewrite fold_left_app. Qed.

(** What the store has for each table. *)
Definition memory (n : string) (src : option nat) (t : nat) (h : list action) : nat + schema :=
  match last_known n t h with
  | Some sc => inr (mkS (columns_of n sc) [n])
  | None => match src with None => inr (mkS [] [n]) | Some r => inl r end
  end.
Definition faithful (h : list action) (st : store) : Prop :=
  length (tables st) = length (made h)
  /\ forall t n src, nth_error (made h) t = Some (n, src) -> nth_error (tables st) t = Some (n, memory n src t h).
Lemma run_faithful h gs : legal (length gs) 0 h -> faithful h (run h gs).
Proof.
  induction h as [|a h IH] using rev_ind; intro L.
  - split; [reflexivity|]. intros [|t] n src X; discriminate X.
  - apply legal_snoc in L as [L A]. destruct (IH L) as [len F]. rewrite run_snoc.
    cbn [Nat.add] in A. destruct a as [m src|t sc]; cbn [act].
    + assert (T : tables (create m src (run h gs)) = tables (run h gs) ++ [(m, match src with None => inr (mkS [] [m]) | Some r => inl r end)])
        by (destruct src; reflexivity).
      split; [rewrite T, made_snoc, !app_length, len; reflexivity|].
      intros u n s X. rewrite made_snoc in X. rewrite T.
      assert (M : memory n s u (h ++ [Create m src]) = memory n s u h) by (unfold memory; now rewrite known_snoc). rewrite M.
      destruct (lt_dec u (length (made h))) as [U|U].
      * rewrite nth_error_app1 in X by exact U. rewrite nth_error_app1 by (rewrite len; exact U). now apply F.
      * rewrite nth_error_app2 in X by lia. rewrite nth_error_app2 by lia. rewrite len.
        destruct (u - length (made h)) as [|j] eqn:E; [|cbn [nth_error] in X; now destruct j]. cbn [nth_error] in *. injection X as <- <-.
        unfold memory. rewrite (known_new m u 0 (length gs) h L) by lia. reflexivity.
    + destruct A as [A _]. destruct (nth_error (made h) t) as [[n src]|] eqn:N; [|apply nth_error_None in N; lia].
      pose proof (F t n src N) as T. unfold ask. rewrite T.
      assert (E : made (h ++ [Ask t sc]) = made h) by (rewrite made_snoc; apply app_nil_r).
      split; [rewrite E; destruct (mem n (s_ids sc)); cbn [fst tables]; rewrite ?set_nth_length; exact len|].
      intros u p s X. rewrite E in X. unfold memory. rewrite known_snoc. fold (memory p s u h).
      destruct (Nat.eqb_spec u t) as [->|D].
      * rewrite N in X. injection X as <- <-. cbn [andb]. destruct (mem n (s_ids sc)) eqn:Y; cbn [fst tables].
        -- rewrite set_nth_same by lia. reflexivity.
        -- exact T.
      * cbn [andb]. destruct (mem n (s_ids sc)); cbn [fst tables]; [rewrite set_nth_other by auto|]; now apply F.
Qed.
Lemma mem_snoc x l n : mem x (l ++ [n]) = (mem x l || String.eqb x n)%bool.
Proof. unfold mem. rewrite existsb_app. cbn [existsb]. now rewrite orb_false_r. Qed.
Lemma given_after h gs r s : nth_error gs r = Some s ->
  exists s', nth_error (given (run h gs)) r = Some s' /\ s_fields s' = s_fields s
    /\ forall x, mem x (s_ids s') = true <-> mem x (s_ids s) = true \/ In (x, Some r) (made h).
Proof.
  intro G. induction h as [|a h IH] using rev_ind.
  - exists s. split; [exact G|]. split; [reflexivity|]. intro x. unfold made. cbn [map concat In]. tauto.
  - destruct IH as (s' & N & Fs & Ids). rewrite run_snoc, made_snoc. destruct a as [m src|t sc]; cbn [act].
    + destruct src as [i|]; cbn [create given].
      * destruct (Nat.eq_dec i r) as [->|D].
        -- rewrite N. exists (add_id m s'). split; [apply set_nth_same; apply nth_error_Some; congruence|].
           split; [unfold add_id; destruct (mem m (s_ids s')); exact Fs|]. intro x. rewrite in_app_iff. cbn [In].
           unfold add_id. destruct (mem m (s_ids s')) eqn:M.
           ++ rewrite Ids. split; [tauto|]. intros [H|[H|[H|[]]]]; auto. injection H as <-. now apply Ids.
           ++ cbn [s_ids]. rewrite mem_snoc, orb_true_iff, Ids. destruct (String.eqb_spec x m) as [->|Y].
              ** tauto.
              ** split; [intros [[H|H]|H]; [auto|auto|discriminate H]|]. intros [H|[H|[H|[]]]]; auto. congruence.
        -- exists s'. split; [|split; [exact Fs|]].
           ++ destruct (nth_error (given (run h gs)) i); [now rewrite set_nth_other|exact N].
           ++ intro x. rewrite in_app_iff, Ids. cbn [In]. split; [tauto|]. intros [H|[H|[H|[]]]]; auto. congruence.
      * exists s'. split; [exact N|]. split; [exact Fs|]. intro x. rewrite in_app_iff, Ids. cbn [In]. split; [tauto|].
        intros [H|[H|[H|[]]]]; auto. congruence.
    + exists s'. rewrite app_nil_r. split; [|split; [exact Fs|exact Ids]]. unfold ask.
      destruct (nth_error (tables (run h gs)) t) as [[n m]|]; [|exact N]. now destruct (mem n (s_ids sc)).
Qed.

(** * Theorems *)
(** What [resolve] answers, whatever was done before. *)
Theorem C72_known : forall h gs t n src sc, legal (length gs) 0 h -> nth_error (made h) t = Some (n, src) ->
  mem n (s_ids sc) = true -> snd (ask t sc (run h gs)) = Some (mkS (columns_of n sc) [n]).
Proof.
  intros h gs t n src sc L N M. destruct (run_faithful h gs L) as [_ F]. unfold ask. rewrite (F _ _ _ N), M. reflexivity.
Qed.
Print Assumptions C72_known.
Theorem C72_remembered : forall h gs t n src sc sc', legal (length gs) 0 h -> nth_error (made h) t = Some (n, src) ->
  mem n (s_ids sc) = false -> last_known n t h = Some sc' ->
  snd (ask t sc (run h gs)) = Some (mkS (columns_of n sc') [n]).
Proof.
  intros h gs t n src sc sc' L N M K. destruct (run_faithful h gs L) as [_ F]. unfold ask. rewrite (F _ _ _ N), M.
  unfold memory. rewrite K. reflexivity.
Qed.
Print Assumptions C72_remembered.
Theorem C72_unknown : forall h gs t n sc, legal (length gs) 0 h -> nth_error (made h) t = Some (n, None) ->
  mem n (s_ids sc) = false -> last_known n t h = None -> snd (ask t sc (run h gs)) = Some (mkS [] [n]).
Proof.
  intros h gs t n sc L N M K. destruct (run_faithful h gs L) as [_ F]. unfold ask. rewrite (F _ _ _ N), M.
  unfold memory. rewrite K. reflexivity.
Qed.
Print Assumptions C72_unknown.
(** A table made with a schema object answers with its columns, and with the names of all
    tables that were made with it, before or afterwards. *)
Theorem C72_shared : forall h gs t n r s sc, legal (length gs) 0 h -> nth_error (made h) t = Some (n, Some r) ->
  nth_error gs r = Some s -> mem n (s_ids sc) = false -> last_known n t h = None ->
  exists s', snd (ask t sc (run h gs)) = Some s' /\ s_fields s' = s_fields s
    /\ forall x, mem x (s_ids s') = true <-> mem x (s_ids s) = true \/ In (x, Some r) (made h).
Proof.
  intros h gs t n r s sc L N G M K. destruct (run_faithful h gs L) as [_ F]. unfold ask. rewrite (F _ _ _ N), M.
  unfold memory. rewrite K. cbn [snd look]. destruct (given_after h gs r s G) as (s' & N' & R). exists s'. split; [|exact R].
  f_equal. now apply nth_error_nth.
Qed.
Print Assumptions C72_shared.
(** A table of its own, not resolved before, is the one of [Schema.v]. *)
Theorem C72_fresh : forall sc n s c st, resolve sc (NTable n s c) = Ok (st, NTable n s c) <->
  snd (ask 0 sc (run [Create n None] [])) = Some st.
Proof.
  intros sc n s c st. unfold run, ask. cbn [fold_left act create tables app nth_error resolve].
  destruct (mem n (s_ids sc)); cbn [snd look]; (split; [intro H; injection H as <-; reflexivity|intro H; injection H as <-; reflexivity]).
Qed.
Print Assumptions C72_fresh.

(** * Cases *)
Local Definition known_schema := mkS [mkF (Some "x") (NTable "a" None None) bigint] ["a"].
Local Definition history := [Create "a" None; Create "b" None; Ask 0 known_schema; Ask 1 known_schema; Ask 0 empty_schema].
Example C72_case : legal 0 0 history /\ last_known "a" 0 history = Some known_schema /\ last_known "b" 1 history = None
  /\ snd (ask 0 empty_schema (run history [])) = Some known_schema
  /\ snd (ask 1 empty_schema (run history [])) = Some (mkS [] ["b"]).
Proof.
  split; [cbn [legal history]; repeat split; try lia; intros i X; discriminate X|]. vm_compute. repeat split; reflexivity.
Qed.
(** Two tables made with the same schema object: each answers to both names. *)
Example C72_case_shared :
  snd (ask 0 empty_schema (run [Create "a" (Some 0); Create "b" (Some 0)] [mkS (s_fields known_schema) []]))
  = Some (mkS (s_fields known_schema) ["a"; "b"]).
Proof. vm_compute. reflexivity. Qed.
(** So the answer is not determined by the table and the schema alone. *)
Theorem C72_by_schema_refuted : ~ (forall h h' t sc, legal 0 0 h -> legal 0 0 h' -> made h = made h' ->
  snd (ask t sc (run h [])) = snd (ask t sc (run h' []))).
Proof.
  intro H. specialize (H [Create "a" None] [Create "a" None; Ask 0 known_schema] 0 empty_schema).
  cbn [legal] in H. assert (E : made [Create "a" None] = made [Create "a" None; Ask 0 known_schema]) by reflexivity.
  vm_compute in H. assert (X : Some (mkS [] ["a"]) = Some known_schema); [|discriminate X].
  apply H; try exact E; repeat split; try lia; intros i X; discriminate X.
Qed.
Print Assumptions C72_by_schema_refuted.
