(** Objects of the fragment can be printed. *)
From Coq Require Import String Ascii List ZArith NArith Bool Arith Lia.
From Verif Require Import PyStr Printer Types TypeFacts Inference Lexer TypeParser Functions Ast Sql Tokens SqlReads Parser
  ParseParts ParseRel ParseQuery Good Unvar ParseMain ParseWhole.
Import ListNotations.
Open Scope nat_scope.
Open Scope string_scope.
Open Scope list_scope.

Lemma plain_not_key n : plain n = true -> mem n ["PARTITION"; "ORDER"; "RANGE"; "ROWS"; "GROUPS"] = false.
Proof.
  intro H. unfold mem. cbn [existsb].
  repeat match goal with
         | |- context [String.eqb n ?k] =>
             destruct (String.eqb_spec n k) as [->|]; [vm_compute in H; discriminate H|]
         end. reflexivity.
Qed.
Lemma keys_ok (w : window node) : opt_all plain (w_parent w) = true -> window_keys_ok w = Ok tt.
Proof.
  destruct w as [p ob ps fr s e]. cbn [w_parent]. intro H. unfold window_keys_ok. cbn [window_entries].
  destruct p as [n|]; [|destruct ps, ob, fr; reflexivity].
  cbn [opt_all] in H. pose proof (plain_not_key n H) as K. unfold mem in K. cbn [existsb] in K.
  rewrite !orb_false_iff in K. destruct K as (K1 & K2 & K3 & K4 & K5 & _).
  destruct n as [|c n]; [discriminate H|]. set (w := String c n) in *. clearbody w.
  rewrite (String.eqb_sym w) in K1, K2, K3, K4, K5.
  assert (A : forall k v m, assoc k m = None -> add_entry k v m = Ok (m ++ [(k, v)])).
  { intros k v m E. unfold add_entry. now rewrite E. }
  destruct ps, ob, fr; cbn [app add_entries frame_text];
    repeat (rewrite A; [cbn [bind app]
           | cbn [assoc app]; rewrite ?K1, ?K2, ?K3, ?K4, ?K5; reflexivity]);
    reflexivity.
Qed.
Lemma window_printable (f : node -> result unit) w :
  (forall x, In x (window_kids w) -> f x = Ok tt) -> opt_all plain (w_parent w) = true ->
  window_pr f w = Ok tt.
Proof.
  intros H P. unfold window_pr. rewrite keys_ok by exact P.
  destruct w as [p ob ps fr s e]. cbn [window_ok window_kids] in *.
  rewrite all_ok_ok by (intros [v d n] Hx; cbn; apply H; rewrite !in_app_iff; left; now apply (in_map o_value) in Hx).
  rewrite all_ok_ok by (intros x Hx; apply H; rewrite !in_app_iff; auto). cbn [bind].
  destruct s as [ds vs|ds|], e as [de ve|de|]; cbn [bound_ok bind bound_kids] in *;
    rewrite ?H by (rewrite !in_app_iff; cbn; auto); cbn [bind];
    rewrite ?H by (rewrite !in_app_iff; cbn; auto); reflexivity.
Qed.
Lemma fopts_printable (f : node -> result unit) x :
  (forall a, In a (fopts_kids x) -> f a = Ok tt) -> opt_all window_good (fo_window x) = true ->
  fopts_pr f x = Ok tt.
Proof.
  destruct x as [ob fi wi ig]. cbn [fopts_kids fopts_pr fo_window]. intros H W.
  rewrite all_ok_ok by (intros [v d n] Hx; cbn; apply H; rewrite !in_app_iff; left; now apply (in_map o_value) in Hx).
  cbn [bind].
  assert (opt_ok f fi = Ok tt) as -> by (destruct fi; [apply H; rewrite !in_app_iff; cbn; auto | reflexivity]).
  destruct wi as [w|]; [|reflexivity]. cbn [opt_ok bind]. cbn in W. unfold window_good in W. apply andb_true_iff in W as [W _].
  apply window_printable; [|exact W]. intros a Ha. apply H. rewrite !in_app_iff. auto.
Qed.
Lemma opt_printable (f : node -> result unit) x :
  (forall a, In a (opt_kids x) -> f a = Ok tt) -> opt_ok f x = Ok tt.
Proof. destruct x; intro H; [apply H; now left | reflexivity]. Qed.
Lemma group_printable (f : node -> result unit) g :
  (forall a, In a (groupby_kids g) -> f a = Ok tt) -> groupby_pr f g = Ok tt.
Proof.
  destruct g as [gs d]. cbn [groupby_kids groupby_pr]. intro H. apply all_ok_ok. intros g Hg.
  assert (H' : forall a, In a (group_kids g) -> f a = Ok tt).
  { intros a Ha. apply H, in_concat. exists (group_kids g). split; [now apply in_map | exact Ha]. }
  destruct g as [l|ll|l|l]; cbn [group_pr group_kids] in *; try (apply all_ok_ok; exact H').
  apply all_ok_ok. intros l Hl. apply all_ok_ok. intros x Hx. apply H', in_concat. eauto.
Qed.
Definition with_printable (q : qattrs node) : result unit :=
  let 'mkQ wi ob _ _ := q in
  let* _ := all_ok (fun x => if is_aliased_rel x then printable x else Err AttributeError) wi in
  all_ok (order_ok printable) ob.
Lemma with_printable_ok q :
  (forall a, In a (qattrs_kids q) -> printable a = Ok tt) -> forallb named_good (q_with q) = true ->
  with_printable q = Ok tt.
Proof.
  destruct q as [wi ob off lim]. cbn [qattrs_kids with_printable q_with]. intros H N. rewrite forallb_forall in N.
  rewrite all_ok_ok.
  2:{ intros x Hx. rewrite H by (rewrite in_app_iff; auto). specialize (N x Hx). now destruct x. }
  cbn [bind]. apply all_ok_ok. intros [v d n] Hx. cbn. apply H. rewrite in_app_iff. right.
  now apply (in_map o_value) in Hx.
Qed.

Lemma good_printable en vs e : good en vs e -> printable e = Ok tt.
Proof.
  induction 1 as [vs e H _ IH].
  unfold good_here in H. apply andb_true_iff in H as [_ H].
  destruct e; try discriminate H; cbn [kids] in IH; try reflexivity;
    try (cbn [printable]; rewrite !IH by (cbn; auto); reflexivity).
  - rewrite !andb_true_iff in H. destruct H as [_ H]. destruct table; [reflexivity..|discriminate].
  - rewrite !andb_true_iff in H. destruct H as [_ H]. destruct table; [reflexivity..|discriminate].
  - cbn [printable]. now apply all_ok_ok.
  - cbn [printable]. rewrite IH by (now left). apply all_ok_ok. intros x Hx. apply IH. now right.
  - cbn [printable]. rewrite !IH by (cbn; auto). apply opt_printable. intros x Hx. apply IH. cbn. auto.
  - cbn [printable]. now apply all_ok_ok.
  - cbn [printable]. rewrite all_ok_ok.
    2:{ intros [c x] Hx. destruct (case_kids _ _ _ Hx). rewrite !IH by (rewrite in_app_iff; auto). reflexivity. }
    cbn [bind]. rewrite !opt_printable by (intros; apply IH; rewrite !in_app_iff; auto). reflexivity.
  - cbn [printable]. rewrite all_ok_ok by (intros; apply IH; rewrite in_app_iff; auto). cbn [bind].
    apply fopts_printable; [intros; apply IH; rewrite in_app_iff; auto|].
    assert (F : (registered en f
           && (if fn_bare f then negb (nonempty args) && fopts_empty fo
               else negb (fn_special f) && forallb is_expr args && fopts_good fo
                    && match f with
                       | FFromUnixtime => negb (length args =? 1)%nat
                       | FApproxPercentile => negb (length args =? 3)%nat
                       | _ => true
                       end))%bool = true -> opt_all window_good (fo_window fo) = true).
    { intros [_ F]%andb_true_iff. destruct (fn_bare f).
      - apply andb_true_iff in F as [_ F]. now destruct fo as [[|] [|] [|] []].
      - unfold fopts_good in F. rewrite !andb_true_iff in F. now destruct F as [[_ [[_ F] _]] _]. }
    destruct f; try (apply F; exact H).
    destruct args as [|a l]; [apply F; exact H|]. destruct a; try (apply F; exact H).
    destruct table; try (apply F; exact H). destruct l; try (apply F; exact H).
    unfold fopts_good in H. rewrite !andb_true_iff in H. now destruct H as [_ [[_ H] _]].
  - cbn [printable]. rewrite IH by (now left). cbn [bind]. apply all_ok_ok. intros [v d n] Hx. cbn.
    apply IH. right. now apply (in_map o_value) in Hx.
  - rewrite !andb_true_iff in H. destruct H as [[[[[[[[_ H1] H2] H3] H4] H5] H6] H7] H8].
    change (printable (NSelect select from_ wh gb having distinct windows qa))
      with (let* _ := with_printable qa in
            let* _ := all_ok printable select in
            let* _ := opt_ok printable from_ in
            let* _ := opt_ok printable wh in
            let* _ := opt_ok (groupby_pr printable) gb in
            let* _ := opt_ok printable having in
            all_ok (fun nw : string * window node => let '(_, w) := nw in window_pr printable w) windows).
    unfold qattrs_good in H8. rewrite !andb_true_iff in H8. destruct H8 as [[[H8 _] _] _].
    rewrite with_printable_ok; [|intros; apply IH; rewrite !in_app_iff; auto 9|exact H8]. cbn [bind].
    rewrite all_ok_ok by (intros; apply IH; rewrite !in_app_iff; auto). cbn [bind].
    rewrite !opt_printable by (intros; apply IH; rewrite !in_app_iff; auto 9). cbn [bind].
    assert (opt_ok (groupby_pr printable) gb = Ok tt) as ->.
    { destruct gb as [g|]; [|reflexivity]. apply group_printable. intros a Ha. apply IH. rewrite !in_app_iff. auto. }
    cbn [bind]. apply all_ok_ok. intros [n w] Hw. rewrite forallb_forall in H6. specialize (H6 _ Hw). cbn [fst snd] in H6.
    unfold window_good in H6. rewrite !andb_true_iff in H6. destruct H6 as [_ [H6 _]].
    apply window_printable; [|exact H6]. intros a Ha. apply IH. rewrite !in_app_iff. do 5 right. left.
    apply in_concat. exists (window_kids w). split; [|exact Ha]. apply in_map_iff. exists (n, w). auto.
  - rewrite !andb_true_iff in H. destruct H as [[_ H1] H2].
    change (printable (NTableQuery e qa)) with (let* _ := with_printable qa in printable e).
    unfold qattrs_good in H2. rewrite !andb_true_iff in H2. destruct H2 as [[[H2 _] _] _].
    rewrite with_printable_ok; [|intros; apply IH; now right|exact H2]. cbn [bind]. apply IH. now left.
  - rewrite !andb_true_iff in H. destruct H as [[[_ H1] H2] H3].
    change (printable (NValues exprs qa)) with (let* _ := with_printable qa in all_ok printable exprs).
    unfold qattrs_good in H3. rewrite !andb_true_iff in H3. destruct H3 as [[[H3 _] _] _].
    rewrite with_printable_ok; [|intros; apply IH; rewrite in_app_iff; auto|exact H3]. cbn [bind].
    apply all_ok_ok. intros; apply IH; rewrite in_app_iff; auto.
  - cbn [printable]. rewrite !IH by (cbn; auto). cbn [bind]. destruct crit as [[l|x]|]; try reflexivity.
    cbn [opt_ok jcrit_ok]. apply IH. cbn. auto.
  - cbn [printable]. now apply all_ok_ok.
Qed.

(** Printing and reading back. *)
Lemma round_expression en e o :
  lexable e -> good en [] e -> is_expr e = true -> ospaces o < 80 ->
  exists s, to_sql o e = Ok s /\ expression_from_sql en s = Ok e.
Proof.
  intros L G He Ho. exists (sql e o). unfold to_sql. apply Nat.ltb_lt in Ho. rewrite Ho. cbn [py_assert bind].
  rewrite (good_printable _ _ _ G). split; [reflexivity|].
  unfold expression_from_sql. rewrite lex_sql by exact L. now apply expression_tokens.
Qed.
Lemma round_query en q o :
  lexable q -> good en [] q -> is_q q = true -> ospaces o < 80 ->
  exists s, to_sql o q = Ok s /\ query_from_sql en s = Ok q.
Proof.
  intros L G He Ho. exists (sql q o). unfold to_sql. apply Nat.ltb_lt in Ho. rewrite Ho. cbn [py_assert bind].
  rewrite (good_printable _ _ _ G). split; [reflexivity|].
  unfold query_from_sql. rewrite lex_sql by exact L.
  rewrite <- (app_nil_r (toks q)). now apply query_tokens.
Qed.
