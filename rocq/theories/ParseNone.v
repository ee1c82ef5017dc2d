(** Facts about the parser: what is read as nothing. *)
From Coq Require Import String Ascii List ZArith NArith Bool Lia Arith.
From Verif Require Import PyStr StrFacts Types Inference Lexer LexFacts TypeParser TypeFacts
  Functions Ast Sql Parser Tokens ParseBase ParseParts ParseExpr ParsePrim ParseForms ParseRel ParseQuery Grammar.
Import ListNotations.
Open Scope nat_scope.
Open Scope string_scope.
Open Scope list_scope.

Lemma dotted_cons x y l : dotted (x :: y :: l) = TId x :: TSym "." :: dotted (y :: l).
Proof. reflexivity. Qed.
Lemma dotted_tail x l k rest : eat_sym "." rest = None -> length (dotted (x :: l)) <= k ->
  p_qname_tail k (tl (dotted (x :: l)) ++ rest) = (map IdUnquoted l, rest).
Proof.
  intro E. revert x k. induction l as [|y l IH]; intros x k Hk.
  - destruct k as [|k]; cbn [app tl dotted map tjoin p_qname_tail]; [reflexivity|]. now rewrite E.
  - rewrite dotted_cons in *. cbn [tl app]. cbn [length] in Hk. destruct k as [|k]; [lia|].
    cbn [p_qname_tail]. rewrite eat_sym_same. destruct (dotted (y :: l)) as [|t d] eqn:D; [destruct l; discriminate|].
    assert (t = TId y) as -> by (destruct l; injection D; auto). cbn [app p_ident].
    specialize (IH y k). rewrite D in IH. cbn [tl length] in *. rewrite IH by lia. reflexivity.
Qed.
Lemma dotted_ok x l rest : eat_sym "." rest = None ->
  p_qname (dotted (x :: l) ++ rest) = Ok (map IdUnquoted (x :: l), rest).
Proof.
  intro E. unfold p_qname. pose proof (dotted_tail x l) as T.
  destruct (dotted (x :: l)) as [|t d] eqn:D; [destruct l; discriminate|].
  assert (t = TId x) as -> by (destruct l; injection D; auto). cbn [app p_ident bind tl] in *.
  rewrite T; [reflexivity | exact E |]. cbn [length]. rewrite app_length. lia.
Qed.

(** * Queries that are read as nothing *)
Record Hd (en : env) (ts : list token) : Prop := {
  hd_first : exists r, ts = TSym "(" :: r;
  hd_ahead : forall k, query_ahead (ts ++ k) = true;
  hd_query : forall n k, 8 * length ts <= n -> query_end k = true -> p_query en n (ts ++ k) = Ok (Ok NNone, k) }.
Lemma hidden_paren en n ts q k :
  p_query_no_with en n (ts ++ TSym ")" :: k) = Ok (Ok q, TSym ")" :: k) -> query_end k = true ->
  p_query en (S (S (S n))) (paren ts ++ k) = Ok (Ok NNone, k).
Proof.
  intros P Q. unfold paren. cbn [app]. rewrite <- app_assoc. cbn [app].
  change (p_query en (S (S (S n))) (TSym "(" :: ts ++ TSym ")" :: k))
    with (query_body (qnw_body (term_body (p_term en n)
           (p_query_primary (p_bool en n 0) (p_primary en n) (p_relation en n) (p_query_no_with en n)) 0)
           (p_bool en (S n) 0)) (p_query en (S (S n))) (TSym "(" :: ts ++ TSym ")" :: k)).
  unfold query_body. cbn [eat_kw]. unfold qnw_body, term_body. cbn [p_query_primary String.eqb Ascii.eqb Bool.eqb].
  rewrite P. cbn [bind]. rewrite eat_sym_same. cbn [need bind]. rewrite query_stop by exact Q. reflexivity.
Qed.
Lemma no_with_read en n ts q r :
  eat_kw "WITH" ts = None -> p_query en (S n) ts = Ok (Ok q, r) ->
  exists q', p_query_no_with en n ts = Ok (Ok q', r).
Proof.
  intro W. change (p_query en (S n) ts) with (query_body (p_query_no_with en n) (p_query en n) ts).
  unfold query_body. rewrite W. destruct (p_query_no_with en n ts) as [[[q'|e] r']|e]; cbn [bind v_query]; try discriminate.
  intro H. injection H as _ ->. eauto.
Qed.
Lemma length_paren ts : length (paren ts) = length ts + 2.
Proof. unfold paren. cbn [length]. rewrite app_length. cbn [length]. lia. Qed.
Lemma Hd_query en q tq : Rq en q tq -> no_with_word tq = true -> Hd en (paren tq).
Proof.
  intros H W. destruct (starts_query_cases _ (rq_first _ _ _ H)) as (w & x & r & E & Hw). constructor.
  - unfold paren. cbn [app]. eauto.
  - intro k. subst tq. destruct Hw as [->|[->|[->| ->]]]; reflexivity.
  - intros n k Hn Q. rewrite length_paren in Hn. do 3 (destruct n as [|n]; [lia|]).
    destruct (no_with_read en n (tq ++ TSym ")" :: k) q (TSym ")" :: k)) as [q' P].
    + subst tq. cbn [app eat_kw no_with_word] in *. destruct (String.eqb w "WITH"); [discriminate | reflexivity].
    + apply (rq_read _ _ _ H); [lia | reflexivity].
    + now apply (hidden_paren en n tq q').
Qed.
Lemma Hd_paren en ts : Hd en ts -> Hd en (paren ts).
Proof.
  intros [[r F] A Q]. constructor.
  - unfold paren. cbn [app]. eauto.
  - intro k. unfold paren. cbn [app]. rewrite <- app_assoc. cbn [app query_ahead String.eqb Ascii.eqb Bool.eqb]. apply A.
  - intros n k Hn E. rewrite length_paren in Hn. do 3 (destruct n as [|n]; [lia|]).
    destruct (no_with_read en n (ts ++ TSym ")" :: k) NNone (TSym ")" :: k)) as [q' P].
    + subst ts. reflexivity.
    + apply Q; [lia | reflexivity].
    + now apply (hidden_paren en n ts q').
Qed.
Lemma lambda_open r : lambda_ahead (TSym "(" :: r) = None.
Proof. destruct r as [|[] r]; reflexivity. Qed.
Lemma star_open r : star_ahead (TSym "(" :: r) = None.
Proof. destruct r as [|[] r]; reflexivity. Qed.

(** * Expressions that are read as nothing *)
Definition none_words := ["EXISTS"; "POSITION"; "TRIM"; "SUBSTRING"; "EXTRACT"; "GROUPING";
  "JSON_EXISTS"; "JSON_VALUE"; "JSON_QUERY"; "JSON_OBJECT"; "JSON_ARRAY"].
Definition none_first (ts : list token) : bool :=
  match ts with
  | TKw k _ :: TSym s :: _ => (mem k none_words && String.eqb s "(")%bool
  | TSym s :: _ => String.eqb s "("
  | TBinary _ :: _ => true
  | _ => false
  end.
Record Nt (en : env) (ts : list token) : Prop := {
  nt_first : none_first ts = true;
  nt_lambda : forall k, lambda_ahead (ts ++ TSym ")" :: k) = None;
  nt_star : forall k, star_ahead (ts ++ k) = None;
  nt_inside : forall n k, 8 * length ts + 8 <= n ->
    unasked en n (ts ++ TSym ")" :: k)
    \/ query_ahead (ts ++ TSym ")" :: k) = true
       /\ p_query en n (ts ++ TSym ")" :: k) = Ok (Ok NNone, TSym ")" :: k);
  nt_head : forall n rest, 8 * length ts + 1 <= n -> lev rest <= 9 ->
    prim_head en (p_bool en n 0) (p_value en n 0) (p_query en n) (ts ++ rest) = Ok (Ok NNone, rest) }.
(** How it starts. *)
Lemma none_cases ts : none_first ts = true ->
  (exists k x r, ts = TKw k x :: TSym "(" :: r /\ mem k none_words = true)
  \/ (exists r, ts = TSym "(" :: r) \/ (exists s r, ts = TBinary s :: r).
Proof.
  destruct ts as [|[k x| | | | | | | | | | |s| ] ts]; try discriminate; cbn [none_first].
  - destruct ts as [|[ | | | | | | | | | | |s| ] ts]; try discriminate.
    rewrite andb_true_iff, String.eqb_eq. intros [H ->]. left. eauto 6.
  - intros _. right. right. eauto.
  - rewrite String.eqb_eq. intros ->. right. left. eauto.
Qed.
Lemma none_kw ts k r : none_first ts = true -> mem k none_words = false -> eat_kw k (ts ++ r) = None.
Proof.
  intros H M. destruct (none_cases _ H) as [(w & x & q & -> & Hw)|[(q & ->)|(s & q & ->)]]; try reflexivity.
  cbn [app eat_kw]. destruct (String.eqb_spec w k) as [->|]; [congruence | reflexivity].
Qed.
Lemma nt_prim en ts n rest : Nt en ts -> 8 * length ts + 2 <= n -> lev rest <= 8 ->
  p_primary en n (ts ++ rest) = Ok (Ok NNone, rest).
Proof.
  intros H Hn L. destruct n as [|n]; [lia|].
  change (p_primary en (S n) (ts ++ rest))
    with (prim_body en (p_bool en n 0) (p_value en n 0) (p_query en n) (ts ++ rest)).
  unfold prim_body. rewrite (nt_head _ _ H) by lia. cbn [bind]. apply post_stop; lia.
Qed.
Lemma nt_value en ts n : Nt en ts -> 8 * length ts + 3 <= n -> Rdv (p_value en n 0) NNone ts.
Proof.
  intros H Hn rest L. destruct n as [|n]; [lia|].
  assert (B : p_value en (S n) 0 (ts ++ rest)
    = let* (a, r) := p_primary en n (ts ++ rest) in value_loop (p_value en n) (S (length r)) 0 a r).
  { change (p_value en (S n) 0 (ts ++ rest)) with (value_body (p_value en n) (p_primary en n) 0 (ts ++ rest)).
    destruct (none_cases _ (nt_first _ _ H)) as [(w & x & q & -> & Hw)|[(q & ->)|(s & q & ->)]]; reflexivity. }
  rewrite B, nt_prim by (auto; lia). cbn [bind]. apply value_stop; lia.
Qed.
Lemma nt_reads en ts : Nt en ts -> reads_as en NNone ts.
Proof.
  intros H n Hn rest L. destruct n as [|n]; [lia|].
  change (p_bool en (S n) 0 (ts ++ rest)) with (bool_body (p_bool en n) (p_value en n 0) (p_query en n) 0 (ts ++ rest)).
  unfold bool_body. rewrite (none_kw _ _ _ (nt_first _ _ H) (eq_refl : mem "NOT" none_words = false)).
  rewrite (nt_value en ts n H) by lia. cbn [bind]. rewrite predicate_stop by lia. cbn [bind]. apply bool_stop; lia.
Qed.
(** Words: whatever is inside. *)
Lemma Nt_word en k x r :
  mem k none_words = true ->
  (forall n rest, 8 * length (TKw k x :: TSym "(" :: r) + 1 <= n -> lev rest <= 9 ->
    prim_head en (p_bool en n 0) (p_value en n 0) (p_query en n) ((TKw k x :: TSym "(" :: r) ++ rest) = Ok (Ok NNone, rest)) ->
  Nt en (TKw k x :: TSym "(" :: r).
Proof.
  intros M P. unfold mem, none_words in M. cbn [existsb] in M. rewrite !orb_true_iff, !String.eqb_eq in M.
  constructor; try exact P.
  - cbn [none_first]. unfold mem, none_words. cbn [existsb]. rewrite !andb_true_iff, !orb_true_iff, !String.eqb_eq. auto.
  - intro q. cbn [app]. generalize (r ++ TSym ")" :: q). intro l.
    decompose [or] M; try discriminate; subst k; destruct l as [|[] l]; reflexivity.
  - intro q. decompose [or] M; try discriminate; subst k; cbn [app]; try reflexivity; destruct (r ++ q) as [|[] [|[] ?]]; reflexivity.
  - intros n q _. left. left. decompose [or] M; try discriminate; subst k; reflexivity.
Qed.
Lemma Nt_query en ts : Hd en ts -> Nt en (paren ts).
Proof.
  intro H. pose proof (Hd_paren en ts H) as H2. constructor.
  - reflexivity.
  - intro k. apply lambda_open.
  - intro k. apply star_open.
  - intros n k Hn. right. split; [apply (hd_ahead _ _ H2) | apply (hd_query _ _ H2); [lia | reflexivity]].
  - intros n rest Hn L. rewrite length_paren in Hn. unfold paren. cbn [app]. rewrite <- app_assoc. cbn [app].
    cbn [prim_head String.eqb Ascii.eqb Bool.eqb]. unfold p_paren. destruct (hd_first _ _ H) as [r E].
    assert (lambda_ahead (ts ++ TSym ")" :: rest) = None) as -> by (subst ts; apply lambda_open).
    rewrite (hd_ahead _ _ H), (hd_query _ _ H) by (reflexivity || lia). cbn [bind]. rewrite eat_sym_same. reflexivity.
Qed.
Lemma Nt_paren en ts : Nt en ts -> Nt en (paren ts).
Proof.
  intro H. constructor.
  - reflexivity.
  - intro k. apply lambda_open.
  - intro k. apply star_open.
  - intros n k Hn. rewrite length_paren in Hn. do 3 (destruct n as [|n]; [lia|]).
    destruct (nt_inside _ _ H (S n) (TSym ")" :: k) ltac:(lia)) as [U|[A Q]].
    + left. apply unasked_paren; [exact U | lia].
    + right. split.
      * unfold paren. cbn [app]. rewrite <- app_assoc. cbn [app query_ahead String.eqb Ascii.eqb Bool.eqb]. exact A.
      * apply no_with_read in Q as [q' P].
        -- now apply (hidden_paren en n ts q').
        -- apply (none_kw _ _ _ (nt_first _ _ H)). reflexivity.
  - intros n rest Hn L. rewrite length_paren in Hn. unfold paren. cbn [app]. rewrite <- app_assoc. cbn [app].
    cbn [prim_head String.eqb Ascii.eqb Bool.eqb]. unfold p_paren. rewrite (nt_lambda _ _ H).
    assert (X : (let* (l, r) := sep (p_bool en n 0) (ts ++ TSym ")" :: rest) in
                 let* r1 := need (eat_sym ")" r) in
                 Ok ((let* l := l in match l with [x] => Ok x | _ => mk (NRow l) end), r1)) = Ok (Ok NNone, rest)).
    { unfold sep. cbn [p_sep]. rewrite (nt_reads en ts H n ltac:(lia) (TSym ")" :: rest) eq_refl). reflexivity. }
    cbv zeta. destruct (nt_inside _ _ H n rest ltac:(lia)) as [U|[A Q]].
    + destruct (query_ahead (ts ++ TSym ")" :: rest)) eqn:E; [|exact X].
      destruct U as [U|[->|(q & r & -> & Er)]]; [congruence | exact X |].
      cbn [bind]. rewrite Er. exact X.
    + rewrite A, Q. cbn [bind]. rewrite eat_sym_same. reflexivity.
Qed.
Lemma Nt_binary en s : Nt en [TBinary s].
Proof. constructor; try reflexivity. intros n k _. left. left. reflexivity. Qed.
Lemma Nt_exists en ts : (forall n k, 8 * length ts + 4 <= n -> exists q, p_query en n (ts ++ TSym ")" :: k) = Ok (Ok q, TSym ")" :: k)) ->
  Nt en (K "EXISTS" :: paren ts).
Proof.
  intro H. apply Nt_word; [reflexivity|]. intros n rest Hn L. cbn [length app] in *. rewrite app_length in Hn. cbn [length] in Hn.
  cbn [prim_head]. unfold p_keyword. cbn [String.eqb Ascii.eqb Bool.eqb]. rewrite eat_sym_same. cbn [need bind].
  rewrite <- app_assoc. cbn [app]. destruct (H n rest ltac:(lia)) as [q ->]. cbn [bind]. rewrite eat_sym_same. reflexivity.
Qed.

(** * Values that are not kept *)
Definition Any (en : env) (ts : list token) : Prop := Nt en ts \/ exists c e, 5 <= c /\ Ex en c e ts.
Lemma any_value en ts : Any en ts ->
  exists e, (forall n, 8 * length ts + 3 <= n -> Rdv (p_value en n 0) e ts) /\ reads_as en e ts.
Proof.
  intros [H|(c & e & Hc & E)].
  - exists NNone. split; [intros; now apply nt_value | now apply nt_reads].
  - exists e. split; [intros; now apply (ex_rdv en c) | intros n Hn; now apply (ex_rd en c)].
Qed.
Lemma any_kw en ts k r : Any en ts -> starter (TKw k k) = false -> mem k none_words = false -> eat_kw k (ts ++ r) = None.
Proof.
  intros [H|(c & e & Hc & E)] S M; [now apply none_kw; [apply H|]|].
  apply not_kw; [|exact S]. apply (shape_weak c); [apply E | lia | lia].
Qed.
Lemma Position_none en t ta tb : word "POSITION" t -> Any en ta -> Any en tb -> Nt en (t :: paren (ta ++ K "IN" :: tb)).
Proof.
  intros [x ->] A B. apply Nt_word; [reflexivity|]. intros n rest Hn L. cbn [length app] in *.
  repeat (rewrite !app_length in Hn; cbn [length] in Hn).
  destruct (any_value en ta A) as (a & Va & _), (any_value en tb B) as (b & Vb & _).
  cbn [prim_head]. unfold p_keyword. cbn [String.eqb Ascii.eqb Bool.eqb mem existsb orb bare_fn].
  unfold p_soft. cbn [String.eqb Ascii.eqb Bool.eqb]. unfold p_position. rewrite eat_sym_same. cbn [need bind].
  rewrite <- !app_assoc. cbn [app]. rewrite Va by (try lia; cbn; lia). cbn [bind]. rewrite eat_kw_same. cbn [need bind].
  rewrite Vb by (try lia; cbn; lia). reflexivity.
Qed.
Lemma Extract_none en t tb : name_word t -> Any en tb -> Nt en (K "EXTRACT" :: paren (t :: K "FROM" :: tb)).
Proof.
  intros W B. apply Nt_word; [reflexivity|]. intros n rest Hn L. cbn [length app] in *.
  repeat (rewrite !app_length in Hn; cbn [length] in Hn).
  destruct (any_value en tb B) as (b & Vb & _).
  cbn [prim_head]. unfold p_keyword. cbn [String.eqb Ascii.eqb Bool.eqb mem existsb orb]. unfold p_extract.
  rewrite eat_sym_same. cbn [need bind]. rewrite <- !app_assoc. cbn [app].
  assert (exists i, p_ident (t :: K "FROM" :: tb ++ TSym ")" :: rest) = Ok (i, K "FROM" :: tb ++ TSym ")" :: rest)
          /\ exists s, visit_ident i = Ok s) as (i & -> & s & V).
  { destruct W as [[y ->]|(k & y & -> & M)].
    - eexists. split; [reflexivity|]. eexists. reflexivity.
    - cbn [p_ident]. rewrite M. eexists. split; [reflexivity|]. eexists. reflexivity. }
  cbn [bind]. rewrite eat_kw_same. cbn [need bind]. rewrite Vb by (try lia; cbn; lia). cbn [bind].
  rewrite eat_sym_same. cbn [need bind]. rewrite V. reflexivity.
Qed.
Lemma Trim_none en ts r :
  (forall n rest, 8 * length (ts ++ r) + 16 <= n ->
    (match ts with [] => trims (r ++ TSym ")" :: rest) = None | [t] => forall q, trims (t :: q) = Some q | _ => False end)
    /\ p_trim_rest (p_value en n 0) (match ts with [] => false | _ => true end) (r ++ TSym ")" :: rest) = Ok (Ok NNone, rest)) ->
  Nt en (K "TRIM" :: paren (ts ++ r)).
Proof.
  intro H. apply Nt_word; [reflexivity|]. intros n rest Hn L. cbn [length app] in *.
  repeat (rewrite !app_length in Hn; cbn [length] in Hn).
  cbn [prim_head]. unfold p_keyword. cbn [String.eqb Ascii.eqb Bool.eqb mem existsb orb]. unfold p_trim.
  rewrite eat_sym_same. cbn [need bind]. rewrite <- !app_assoc. cbn [app].
  destruct (H n rest) as [T P]; [rewrite app_length; lia|].
  destruct ts as [|t [|u ts]]; try contradiction; cbn [app] in *.
  - rewrite T. exact P.
  - rewrite T. rewrite P. reflexivity.
Qed.
Lemma trims_no ts r : no_trim_word ts = true -> ts <> [] -> trims (ts ++ r) = None.
Proof.
  intros H N. destruct ts as [|[k x| | | | | | | | | | | | ] ts]; try reflexivity; [congruence|].
  cbn [app trims no_trim_word] in *. unfold trim_words in H. destruct (mem k _); [discriminate | reflexivity].
Qed.
Lemma any_some en ts : Any en ts -> ts <> [].
Proof.
  intros [H|(c & e & Hc & E)].
  - pose proof (nt_first _ _ H) as F. destruct ts; discriminate.
  - pose proof (sh_first _ _ (ex_shape _ _ _ _ E)) as F. now destruct ts.
Qed.
Lemma Trim_plain en ta : Any en ta -> no_trim_word ta = true -> Nt en (K "TRIM" :: paren ta).
Proof.
  intros A T. apply (Trim_none en [] ta). intros n rest Hn. cbn [app] in Hn. split; [apply trims_no; auto; now apply (any_some en)|].
  destruct (any_value en ta A) as (a & Va & _). unfold p_trim_rest.
  rewrite (any_kw en ta "FROM" _ A) by reflexivity. rewrite Va by (try lia; cbn; lia). reflexivity.
Qed.
Lemma Trim_comma en ta tb : Any en ta -> no_trim_word ta = true -> Any en tb -> Nt en (K "TRIM" :: paren (ta ++ TSym "," :: tb)).
Proof.
  intros A T B. apply (Trim_none en [] (ta ++ TSym "," :: tb)). intros n rest Hn. cbn [app] in Hn. rewrite app_length in Hn.
  cbn [length] in Hn. rewrite <- app_assoc. cbn [app]. split; [apply trims_no; auto; now apply (any_some en)|].
  destruct (any_value en ta A) as (a & Va & _), (any_value en tb B) as (b & Vb & _). unfold p_trim_rest.
  rewrite (any_kw en ta "FROM" _ A) by reflexivity. rewrite Va by (try lia; cbn; lia). cbn [bind eat_kw].
  rewrite eat_sym_same. rewrite Vb by (try lia; cbn; lia). reflexivity.
Qed.
Lemma Trim_from en ts tb : trim_spec ts [] -> Any en tb -> Nt en (K "TRIM" :: paren (ts ++ K "FROM" :: tb)).
Proof.
  intros S B. apply Trim_none. intros n rest Hn. rewrite app_length in Hn. cbn [length] in Hn. split.
  - destruct S as [q H|k x q M]; [reflexivity|]. intro. cbn [trims]. unfold trim_words in M. now rewrite M.
  - destruct (any_value en tb B) as (b & Vb & _). unfold p_trim_rest. cbn [app]. rewrite eat_kw_same.
    rewrite Vb by (try lia; cbn; lia). reflexivity.
Qed.
Lemma Trim_chars en ts ta tb : trim_spec ts ta -> Any en ta -> Any en tb ->
  Nt en (K "TRIM" :: paren (ts ++ ta ++ K "FROM" :: tb)).
Proof.
  intros S A B. apply Trim_none. intros n rest Hn. rewrite !app_length in Hn. cbn [length] in Hn.
  rewrite <- app_assoc. cbn [app]. split.
  - destruct S as [q H|k x q M].
    + apply trims_no; auto. now apply (any_some en).
    + intro. cbn [trims]. unfold trim_words in M. now rewrite M.
  - destruct (any_value en ta A) as (a & Va & _), (any_value en tb B) as (b & Vb & _). unfold p_trim_rest.
    rewrite (any_kw en ta "FROM" _ A) by reflexivity. rewrite Va by (try lia; cbn; lia). cbn [bind].
    rewrite eat_kw_same. rewrite Vb by (try lia; cbn; lia). reflexivity.
Qed.
Lemma any_call en ts : Any en ts ->
  (forall k, eat_sym "." k = None -> star_ahead (ts ++ k) = None)
  /\ (forall k, no_args_ahead (ts ++ k) = false) /\ (forall k, p_quant (ts ++ k) = (None, ts ++ k)).
Proof.
  intros [H|(c & e & Hc & E)].
  - split; [intros; apply (nt_star _ _ H)|].
    destruct (none_cases _ (nt_first _ _ H)) as [(w & x & q & -> & Hw)|[(q & ->)|(s & q & ->)]]; [|split; reflexivity..].
    unfold mem, none_words in Hw. cbn [existsb] in Hw. rewrite !orb_true_iff, !String.eqb_eq in Hw.
    decompose [or] Hw; try discriminate; subst w; split; reflexivity.
  - assert (S : shape 0 ts) by (apply (shape_weak c); [apply E | lia | lia]).
    split; [intros; now apply star_none|]. split; intro; [now apply args_ahead | now apply quant_none].
Qed.
Lemma Substring_none en t ta tl tb :
  word "SUBSTRING" t -> Any en ta -> Any en tb -> (tl = [] \/ exists tc, tl = K "FOR" :: tc /\ Any en tc) ->
  Nt en (t :: paren (ta ++ K "FROM" :: tb ++ tl)).
Proof.
  intros [x ->] A B C. apply Nt_word; [reflexivity|]. intros n rest Hn L. cbn [length app] in *.
  repeat (rewrite !app_length in Hn; cbn [length] in Hn).
  destruct (any_value en ta A) as (a & Va & Ra), (any_value en tb B) as (b & Vb & _).
  destruct (any_call en ta A) as (Hs & Hn1 & Hq).
  assert (P : p_substring (p_value en n 0) (TSym "(" :: (ta ++ K "FROM" :: tb ++ tl) ++ TSym ")" :: rest) = Ok (Ok NNone, rest)).
  { unfold p_substring. rewrite eat_sym_same. cbn [need bind]. rewrite <- !app_assoc. cbn [app].
    rewrite Va by (try lia; cbn; lia). cbn [bind]. rewrite eat_kw_same. cbn [need bind]. rewrite <- app_assoc.
    destruct C as [->|(tc & -> & C)].
    - cbn [app]. rewrite Vb by (try lia; cbn; lia). reflexivity.
    - cbn [app length] in *. destruct (any_value en tc C) as (c & Vc & _).
      rewrite Vb by (try lia; cbn; lia). cbn [bind]. rewrite eat_kw_same, Vc by (try lia; cbn; lia). reflexivity. }
  cbn [prim_head]. unfold p_keyword. cbn [String.eqb Ascii.eqb Bool.eqb mem existsb orb bare_fn].
  match goal with |- context [p_name_first ?a ?b ?c ?d] =>
    assert (X : p_name_first a b c d = Ok (Ok NNone, rest)) end.
  { unfold p_name_first. cbn [p_ident mem non_reserved existsb String.eqb Ascii.eqb Bool.eqb orb bind measure_ahead].
    unfold p_ident_first. cbn [p_string eat_sym String.eqb Ascii.eqb Bool.eqb]. unfold p_qname.
    cbn [p_ident mem non_reserved existsb String.eqb Ascii.eqb Bool.eqb orb bind p_qname_tail length app eat_sym].
    unfold p_call. rewrite <- !app_assoc. cbn [app]. rewrite Hs by reflexivity. rewrite Hn1, Hq.
    unfold sep. cbn [p_sep]. rewrite Ra by (try lia; reflexivity). 
    cbn [bind p_last String.eqb Ascii.eqb Bool.eqb]. rewrite <- !app_assoc in P. cbn [app] in P.
    cbn [eat_sym]. unfold p_orderby. cbn [eat_kw String.eqb Ascii.eqb Bool.eqb K bind eat_sym need orelse]. exact P. }
  rewrite X. reflexivity.
Qed.
Lemma none_after_plain l : none_after (map visit_ident (map IdUnquoted l)) = Ok NNone.
Proof. induction l as [|x l IH]; [reflexivity | exact IH]. Qed.
Lemma grouping_args l : forall k acc rest, l <> [] -> (forall x, In x l -> x <> []) -> length l <= k ->
  p_grouping_args k (map IdUnquoted acc) (commas (map dotted l) ++ TSym ")" :: rest) = Ok (Ok NNone, rest).
Proof.
  induction l as [|x l IH]; intros k acc rest N F Hk; [congruence|]. cbn [length] in Hk. destruct k as [|k]; [lia|].
  cbn [p_grouping_args]. assert (x <> []) by (apply F; now left). destruct x as [|n x]; [congruence|].
  destruct l as [|y l].
  - cbn [map]. unfold commas. cbn [tjoin]. rewrite dotted_ok by reflexivity. cbn [bind eat_sym String.eqb Ascii.eqb Bool.eqb need].
    rewrite <- map_app, none_after_plain. reflexivity.
  - cbn [map]. rewrite commas_cons, <- app_assoc. cbn [app]. rewrite dotted_ok by reflexivity. cbn [bind]. rewrite eat_sym_same.
    rewrite <- map_app. apply IH; [discriminate | | lia]. intros z Hz. apply F. now right.
Qed.
Lemma commas_length (tss : list (list token)) : (forall x, In x tss -> x <> []) -> length tss <= length (commas tss).
Proof.
  induction tss as [|x tss IH]; intro F; [cbn; lia|]. assert (x <> []) by (apply F; now left). destruct x as [|t x]; [congruence|].
  destruct tss as [|y tss].
  - cbn. lia.
  - rewrite commas_cons. cbn [app length]. rewrite app_length. cbn [length].
    assert (length (y :: tss) <= length (commas (y :: tss))) by (apply IH; intros; apply F; now right). cbn [length] in *. lia.
Qed.
Lemma dotted_some l : l <> [] -> dotted l <> [].
Proof. destruct l as [|x [|y l]]; [congruence | discriminate | discriminate]. Qed.
Lemma Grouping_none en l : (forall x, In x l -> x <> []) -> Nt en (K "GROUPING" :: paren (commas (map dotted l))).
Proof.
  intro F. apply Nt_word; [reflexivity|]. intros n rest Hn L. clear Hn. cbn [length app] in *.
  cbn [prim_head]. unfold p_keyword. cbn [String.eqb Ascii.eqb Bool.eqb mem existsb orb]. unfold p_grouping.
  rewrite eat_sym_same. cbn [need bind]. rewrite <- !app_assoc. cbn [app]. destruct l as [|x l].
  - reflexivity.
  - assert (E : eat_sym ")" (commas (map dotted (x :: l)) ++ TSym ")" :: rest) = None).
    { assert (x <> []) by (apply F; now left). destruct x as [|n0 x]; [congruence|].
      destruct x, l; reflexivity. }
    rewrite E. apply (grouping_args (x :: l) _ [] rest); [discriminate | exact F|].
    rewrite app_length.
    assert (length (map dotted (x :: l)) <= length (commas (map dotted (x :: l)))).
    { apply commas_length. intros y Hy. apply in_map_iff in Hy as (z & <- & Hz). now apply dotted_some, F. }
    rewrite map_length in *. lia.
Qed.

(** * Clauses *)
Lemma Nt_operand en ts : Nt en ts -> operand en NNone ts.
Proof.
  intro H. split; [now apply nt_reads|]. intro k. split; [|now apply none_kw; [apply H|]].
  destruct (none_cases _ (nt_first _ _ H)) as [(w & x & q & -> & Hw)|[(q & ->)|(s & q & ->)]]; reflexivity.
Qed.
Lemma Hd_rel en ts : Hd en ts -> rel_reads_as en NNone (paren ts).
Proof.
  intros H n rest Hn E. destruct n as [|n]; [lia|]. rewrite length_paren in Hn.
  change (p_relation en (S n) (paren ts ++ rest)) with
    (relation_body (p_bool en n 0) (p_query en n) (p_relation en n) (paren ts ++ rest)).
  unfold relation_body, p_sampled, p_aliased, p_relation_primary.
  unfold paren. cbn [app]. rewrite <- app_assoc. cbn [app].
  change (String.eqb "(" "(") with true. cbv iota.
  rewrite (hd_query _ _ H) by (reflexivity || lia). cbn [bind]. rewrite eat_sym_same. cbn [need bind orelse].
  rewrite (en_alias _ (ce_ender _ E)). cbn [bind v_aliased_rel]. rewrite (ce_sample _ E).
  destruct (clause_ahead rest); cbn [bind]; cbn [rel_loop]; now rewrite (ce_join _ E).
Qed.
