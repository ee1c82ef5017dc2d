(** C66: the JSON functions and the table functions.

    The converter has no visitors for them: the grammar accepts them and what is
    returned is [None], so that a call vanishes from the object.  Here: which texts
    the grammar accepts (stated as in SqlBase.g4, without the skeletons that the
    model of the parser walks), and that they vanish. *)
From Coq Require Import String Ascii List Bool Arith NArith ZArith Lia.
From Verif Require Import PyStr StrFacts Types Inference Lexer TypeParser Functions Ast Sql Walk Parser Tokens NodeFacts
  Spelling SpellFacts ParseForms ParseRel PropertiesLiterals ParseMore ParseMoreQ Typing PropertiesRules Grammar GrammarFacts PropertiesGrammar PropertiesNothing Accepts AcceptFacts AcceptExpr AcceptCalls
  AcceptPrim AcceptQuery PropertiesAccepts.
Import ListNotations.
Open Scope nat_scope.
Open Scope string_scope.
Open Scope list_scope.

(** * Languages *)
Definition lang := list token -> Prop.
Definition kw (k : string) : lang := fun ts => exists x, ts = [TKw k x].
Definition sg (s : string) : lang := fun ts => ts = [TSym s].
Definition sq (a b : lang) : lang := fun ts => exists t u, ts = t ++ u /\ a t /\ b u.
Definition alt (a b : lang) : lang := fun ts => a ts \/ b ts.
Definition opt (a : lang) : lang := fun ts => ts = [] \/ a ts.
Inductive many (a : lang) : lang :=
| many_one t : a t -> many a t
| many_more t u : a t -> many a u -> many a (t ++ TSym "," :: u).
Definition round (a : lang) : lang := fun ts => exists t, ts = paren t /\ a t.
Infix ";;" := sq (at level 61, right associativity).
Infix "||" := alt.
Definition expr_l (en : env) : lang := fun ts => exists e, means en (FExpr 1 e) ts.
Definition query_l (en : env) : lang := fun ts => exists q, means en (FQuery q) ts.
Definition sort_l (en : env) : lang := fun ts => exists o, means en (FSort o) ts.
Definition type_l : lang := fun ts => exists p r, syntax (TType p) ts /\ visit_type p = Ok r.
Definition text_l : lang := fun ts => exists v, text v ts.
Definition name_l : lang := fun ts => exists n, name n ts.
Definition path_l : lang := fun ts => exists l, path l ts.

(** SqlBase.g4 529-606 *)
Definition representation : lang := kw "JSON" ;; opt (kw "ENCODING" ;; (kw "UTF8" || (kw "UTF16" || kw "UTF32"))).
Definition format : lang := opt (kw "FORMAT" ;; representation).
Definition value_expression en : lang := expr_l en ;; format.
Definition argument en : lang := value_expression en ;; kw "AS" ;; name_l.
Definition path_invocation en : lang :=
  value_expression en ;; sg "," ;; text_l ;; opt (kw "PASSING" ;; many (argument en)).
Definition exists_behavior : lang := kw "TRUE" || (kw "FALSE" || (kw "UNKNOWN" || kw "ERROR")).
Definition value_behavior en : lang := kw "ERROR" || (kw "NULL" || (kw "DEFAULT" ;; expr_l en)).
Definition query_behavior : lang := kw "ERROR" || (kw "NULL" || ((kw "EMPTY" ;; kw "ARRAY") || (kw "EMPTY" ;; kw "OBJECT"))).
Definition wrapper : lang :=
  (kw "WITHOUT" ;; opt (kw "ARRAY")) || (kw "WITH" ;; opt (kw "CONDITIONAL" || kw "UNCONDITIONAL") ;; opt (kw "ARRAY")).
Definition member en : lang :=
  (opt (kw "KEY") ;; expr_l en ;; kw "VALUE" ;; value_expression en) || (expr_l en ;; sg ":" ;; value_expression en).
Definition returning : lang := kw "RETURNING" ;; type_l ;; format.
Definition on (k : string) : lang := kw "ON" ;; kw k.
Definition nulls_l : lang := opt ((kw "NULL" ;; on "NULL") || (kw "ABSENT" ;; on "NULL")).
Definition unique_l : lang := opt ((kw "WITH" ;; kw "UNIQUE" ;; opt (kw "KEYS")) || (kw "WITHOUT" ;; kw "UNIQUE" ;; opt (kw "KEYS"))).
(** What is written between the parentheses. *)
Definition json_text (en : env) (k : string) : lang := fun ts =>
  k = "JSON_EXISTS" /\ (path_invocation en ;; opt (exists_behavior ;; on "ERROR")) ts
  \/ k = "JSON_VALUE" /\ (path_invocation en ;; opt (kw "RETURNING" ;; type_l) ;;
       opt (value_behavior en ;; on "EMPTY") ;; opt (value_behavior en ;; on "ERROR")) ts
  \/ k = "JSON_QUERY" /\ (path_invocation en ;; opt returning ;; opt (wrapper ;; kw "WRAPPER") ;;
       opt ((kw "KEEP" || kw "OMIT") ;; kw "QUOTES" ;; opt (kw "ON" ;; kw "SCALAR" ;; kw "STRING")) ;;
       opt (query_behavior ;; on "EMPTY") ;; opt (query_behavior ;; on "ERROR")) ts
  \/ k = "JSON_OBJECT" /\ (opt (many (member en) ;; nulls_l ;; unique_l) ;; opt returning) ts
  \/ k = "JSON_ARRAY" /\ (opt (many (value_expression en) ;; nulls_l) ;; opt returning) ts.

(** SqlBase.g4 393-401, 412-444 *)
Definition alias_l : lang := opt (opt (kw "AS") ;; name_l ;; opt (round (many name_l))).
Definition table_argument en : lang :=
  (kw "TABLE" ;; (round path_l || round (query_l en)) ;; alias_l) ;;
  opt (kw "PARTITION" ;; kw "BY" ;; (round (opt (many (expr_l en))) || expr_l en)) ;;
  opt ((kw "PRUNE" ;; kw "WHEN" ;; kw "EMPTY") || (kw "KEEP" ;; kw "WHEN" ;; kw "EMPTY")) ;;
  opt (kw "ORDER" ;; kw "BY" ;; (round (many (sort_l en)) || sort_l en)).
Definition descriptor : lang :=
  (kw "DESCRIPTOR" ;; round (many (name_l ;; opt type_l))) || (kw "CAST" ;; round (kw "NULL" ;; kw "AS" ;; kw "DESCRIPTOR")).
Definition function_argument en : lang := opt (name_l ;; sg "=>") ;; (table_argument en || (descriptor || expr_l en)).
Definition copartition : lang := kw "COPARTITION" ;; many (round (path_l ;; sg "," ;; many path_l)).
Definition table_call en : lang := path_l ;; round (opt (many (function_argument en)) ;; opt copartition).

(** * The skeletons say the same *)
Definition same (a b : lang) : Prop := forall ts, a ts <-> b ts.
Definition skim (en : env) (h : skeleton) : lang := fun ts => means en (FSkim h) ts.
Lemma same_refl a : same a a. Proof. intro ts. reflexivity. Qed.
Lemma same_trans a b c : same a b -> same b c -> same a c. Proof. intros A B ts. now rewrite (A ts), (B ts). Qed.
Lemma same_sym a b : same a b -> same b a. Proof. intros A ts. now rewrite (A ts). Qed.
Lemma same_sq a a' b b' : same a a' -> same b b' -> same (a ;; b) (a' ;; b').
Proof. intros A B ts. split; intros (t & u & -> & Ha & Hb); exists t, u; (split; [reflexivity|]); (split; [now apply A|now apply B]). Qed.
Lemma same_alt a a' b b' : same a a' -> same b b' -> same (a || b) (a' || b').
Proof. intros A B ts. unfold alt. now rewrite (A ts), (B ts). Qed.
Lemma same_opt a a' : same a a' -> same (opt a) (opt a').
Proof. intros A ts. unfold opt. now rewrite (A ts). Qed.
Lemma same_round a a' : same a a' -> same (round a) (round a').
Proof. intros A ts. split; intros (t & -> & H); exists t; (split; [reflexivity|]); now apply A. Qed.
Lemma same_many a a' : same a a' -> same (many a) (many a').
Proof. intros A ts. split; induction 1; try (apply many_one; now apply A); apply many_more; auto; now apply A. Qed.
Lemma s_nil en : same (fun ts => ts = []) (skim en HNil).
Proof. intro ts. split; [intros ->; constructor|]. intro H. now inversion H. Qed.
Lemma s_ends en : same (fun ts => ts = []) (skim en HEnds).
Proof. intro ts. split; [intros ->; constructor|]. intro H. now inversion H. Qed.
Lemma s_kw en k : same (kw k) (skim en (HKw k)).
Proof. intro ts. split; [intros [x ->]; constructor|]. intro H. inversion H; subst. eexists; reflexivity. Qed.
Lemma s_sg en s : In s [","; ":"; "=>"] -> same (sg s) (skim en (HSym s)).
Proof. intros I ts. split; [intros ->; now constructor|]. intro H. inversion H; subst. reflexivity. Qed.
Lemma s_expr en : same (expr_l en) (skim en HExpr).
Proof. intro ts. split; [intros [e H]; econstructor; eassumption|]. intro H. inversion H; subst. eexists; eassumption. Qed.
Lemma s_query en : same (query_l en) (skim en HQuery).
Proof. intro ts. split; [intros [e H]; econstructor; eassumption|]. intro H. inversion H; subst. eexists; eassumption. Qed.
Lemma s_sort en : same (sort_l en) (skim en HSort).
Proof. intro ts. split; [intros [e H]; econstructor; eassumption|]. intro H. inversion H; subst. eexists; eassumption. Qed.
Lemma s_type en : same type_l (skim en HType).
Proof. intro ts. split; [intros (p & r & H & V); econstructor; eassumption|]. intro H. inversion H; subst. eexists _, _; split; eassumption. Qed.
Lemma s_text en : same text_l (skim en HText).
Proof. intro ts. split; [intros [e H]; econstructor; eassumption|]. intro H. inversion H; subst. eexists; eassumption. Qed.
Lemma s_name en : same name_l (skim en HName).
Proof. intro ts. split; [intros [e H]; econstructor; eassumption|]. intro H. inversion H; subst. eexists; eassumption. Qed.
Lemma s_path en : same path_l (skim en HPath).
Proof. intro ts. split; [intros [e H]; econstructor; eassumption|]. intro H. inversion H; subst. eexists; eassumption. Qed.
Lemma s_then en a b A B : same A (skim en a) -> same B (skim en b) -> same (A ;; B) (skim en (HThen a b)).
Proof.
  intros Ha Hb. eapply same_trans; [now apply same_sq|]. intro ts. split.
  - intros (t & u & -> & X & Y). now constructor.
  - intro H. inversion H; subst. eexists _, _. split; [reflexivity|]. split; assumption.
Qed.
Lemma s_alt en a b A B : same A (skim en a) -> same B (skim en b) -> same (A || B) (skim en (HEither a b)).
Proof.
  intros Ha Hb. eapply same_trans; [now apply same_alt|]. intro ts. split.
  - intros [X|X]; [now apply m_skim_left|now apply m_skim_right].
  - intro H. inversion H; subst; [left|right]; assumption.
Qed.
Lemma s_opt en a A : same A (skim en a) -> same (opt A) (skim en (HMaybe a)).
Proof.
  intros Ha. eapply same_trans; [now apply same_opt|]. intro ts. split.
  - intros [->|X]; [now apply m_skim_absent|now apply m_skim_present].
  - intro H. inversion H; subst; [left|right]; auto.
Qed.
Lemma s_round en a A : same A (skim en a) -> same (round A) (skim en (HParen a)).
Proof.
  intros Ha. eapply same_trans; [now apply same_round|]. intro ts. split.
  - intros (t & -> & X). now constructor.
  - intro H. inversion H; subst. eexists. split; [reflexivity|assumption].
Qed.
Lemma s_many en a A : same A (skim en a) -> same (many A) (skim en (HCommas a)).
Proof.
  intros Ha. eapply same_trans; [now apply same_many|]. intro ts. split.
  - induction 1; [now apply m_skim_one|now apply m_skim_more].
  - intro H. remember (FSkim (HCommas a)) as f eqn:E. unfold skim in H. rewrite <- E in H. revert E.
    induction H; intro E; try discriminate E; injection E as ->; [now apply many_one|]. apply many_more; auto.
Qed.
Ltac skel := repeat first
  [ apply s_then | apply s_alt | apply s_opt | apply s_round | apply s_many | apply s_kw | apply s_expr | apply s_query
  | apply s_sort | apply s_type | apply s_text | apply s_name | apply s_path | apply s_nil | apply s_ends
  | apply s_sg; cbn [In]; tauto ].
Lemma opt_first a b ts : (opt a ;; b) ts <-> (a ;; b) ts \/ b ts.
Proof.
  split.
  - intros (t & u & -> & [->|A] & B); [right; exact B|left; exists t, u; auto].
  - intros [(t & u & -> & A & B)|B]; [exists t, u|exists [], ts]; unfold opt; auto.
Qed.
Lemma opt_alone a ts : opt a ts <-> a ts \/ ts = [].
Proof. unfold opt. tauto. Qed.
Lemma sq_assoc a b c : same ((a ;; b) ;; c) (a ;; b ;; c).
Proof.
  intro ts. split.
  - intros (t & u & -> & (v & w & -> & A & B) & C). exists v, (w ++ u). rewrite app_assoc. split; [reflexivity|].
    split; [exact A|]. exists w, u. auto.
  - intros (t & u & -> & A & v & w & -> & B & C). exists (t ++ v), w. rewrite app_assoc. split; [reflexivity|].
    split; [exists t, v; auto|exact C].
Qed.
Lemma sq_nil a : same a (a ;; (fun ts => ts = [])).
Proof.
  intro ts. split.
  - intro A. exists ts, []. rewrite app_nil_r. auto.
  - intros (t & u & -> & A & ->). now rewrite app_nil_r.
Qed.

Lemma s_invocation en : same (path_invocation en) (skim en h_path_invocation).
Proof. unfold path_invocation, value_expression, argument, value_expression, format, representation, h_path_invocation, h_json_value, h_format, h_json. cbn [h_seq h_any]. skel. Qed.
Lemma s_value en : same (value_expression en) (skim en h_json_value).
Proof. unfold value_expression, format, representation, h_json_value, h_format, h_json. cbn [h_seq h_any]. skel. Qed.
Lemma s_returning en : same returning (skim en h_returning).
Proof. unfold returning, format, representation, h_returning, h_format, h_json. cbn [h_seq h_any]. skel. Qed.
Lemma s_member en : same (member en) (skim en h_member).
Proof.
  assert (A : same (kw "KEY" ;; expr_l en ;; kw "VALUE" ;; value_expression en) (skim en (h_seq [HKw "KEY"; HExpr; HKw "VALUE"; h_json_value])))
    by (cbn [h_seq]; skel; apply s_value).
  assert (B : same (expr_l en ;; kw "VALUE" ;; value_expression en) (skim en (h_seq [HExpr; HKw "VALUE"; h_json_value])))
    by (cbn [h_seq]; skel; apply s_value).
  assert (C : same (expr_l en ;; sg ":" ;; value_expression en) (skim en (h_seq [HExpr; HSym ":"; h_json_value])))
    by (cbn [h_seq]; skel; apply s_value).
  unfold h_member. cbn [h_any]. eapply same_trans; [|exact (s_alt _ _ _ _ _ A (s_alt _ _ _ _ _ B C))].
  intro ts. unfold member, alt. rewrite opt_first. tauto.
Qed.
Lemma s_nulls en : same nulls_l (skim en h_nulls).
Proof. unfold nulls_l, on, h_nulls, h_words. cbn [h_seq map]. skel. Qed.
Lemma s_unique en : same unique_l (skim en (HMaybe (HEither (h_unique "WITH") (h_unique "WITHOUT")))).
Proof. unfold unique_l, h_unique. cbn [h_seq map]. skel. Qed.

(** Between the parentheses of a JSON function: what the grammar says. *)
Theorem C66_json : forall en k ts,
  json_text en k ts <-> exists h, In h (json_shapes k) /\ means en (FSkim h) ts.
Proof.
  intros en k ts. unfold json_text, json_shapes.
  destruct (String.eqb_spec k "JSON_EXISTS") as [->|N1]; [|destruct (String.eqb_spec k "JSON_VALUE") as [->|N2];
    [|destruct (String.eqb_spec k "JSON_QUERY") as [->|N3]; [|destruct (String.eqb_spec k "JSON_OBJECT") as [->|N4];
    [|destruct (String.eqb_spec k "JSON_ARRAY") as [->|N5]]]]].
  - assert (S : same (path_invocation en ;; opt (exists_behavior ;; on "ERROR"))
      (skim en (HThen h_path_invocation (HMaybe (HThen h_exists_error (h_words ["ON"; "ERROR"])))))).
    { apply s_then; [apply s_invocation|]. unfold exists_behavior, on, h_exists_error, h_words. cbn [h_seq h_any map]. skel. }
    split.
    + intros [[_ H]|H]; [|intuition congruence]. eexists. split; [now left|]. now apply S.
    + intros (h & [<-|[]] & H). left. split; [reflexivity|]. now apply S.
  - match goal with |- _ <-> exists h, In h [?g] /\ _ =>
      assert (S : same (path_invocation en ;; opt (kw "RETURNING" ;; type_l) ;;
        opt (value_behavior en ;; on "EMPTY") ;; opt (value_behavior en ;; on "ERROR")) (skim en g)) end.
    { cbn [h_seq]. apply s_then; [apply s_invocation|]. unfold value_behavior, on, h_value_behavior, h_words. cbn [h_seq h_any map]. skel. }
    split.
    + intros H. destruct H as [H|[[_ H]|H]]; try solve [intuition congruence]. eexists. split; [now left|]. now apply S.
    + intros (h & [<-|[]] & H). right. left. split; [reflexivity|]. now apply S.
  - match goal with |- _ <-> exists h, In h [?g] /\ _ =>
      assert (S : same (path_invocation en ;; opt returning ;; opt (wrapper ;; kw "WRAPPER") ;;
       opt ((kw "KEEP" || kw "OMIT") ;; kw "QUOTES" ;; opt (kw "ON" ;; kw "SCALAR" ;; kw "STRING")) ;;
       opt (query_behavior ;; on "EMPTY") ;; opt (query_behavior ;; on "ERROR")) (skim en g)) end.
    { cbn [h_seq]. apply s_then; [apply s_invocation|]. apply s_then; [apply s_opt, s_returning|].
      unfold wrapper, query_behavior, on, h_wrapper, h_query_behavior, h_words. cbn [h_seq h_any map]. skel. }
    split.
    + intros H. destruct H as [H|[H|[[_ H]|H]]]; try solve [intuition congruence]. eexists. split; [now left|]. now apply S.
    + intros (h & [<-|[]] & H). right. right. left. split; [reflexivity|]. now apply S.
  - match goal with |- _ <-> exists h, In h [?g; ?g'] /\ _ =>
      assert (S : same (many (member en) ;; nulls_l ;; unique_l ;; opt returning) (skim en g));
      [|assert (R : same (opt returning) (skim en g')) by apply s_opt, s_returning] end.
    { cbn [h_seq]. apply s_then; [apply s_many, s_member|]. apply s_then; [apply s_nulls|]. apply s_then; [apply s_unique|]. apply s_opt, s_returning. }
    assert (O : (opt (many (member en) ;; nulls_l ;; unique_l) ;; opt returning) ts
      <-> (many (member en) ;; nulls_l ;; unique_l ;; opt returning) ts \/ opt returning ts).
    { rewrite opt_first. rewrite (sq_assoc (many (member en)) _ _ ts).
      now rewrite (same_sq (many (member en)) _ _ _ (same_refl _) (sq_assoc nulls_l unique_l (opt returning)) ts). }
    split.
    + intros H. destruct H as [H|[H|[H|[[_ H]|H]]]]; try solve [intuition congruence]. apply O in H as [H|H].
      * eexists. split; [now left|]. now apply S.
      * eexists. split; [right; now left|]. now apply R.
    + intros (h & [<-|[<-|[]]] & H); right; right; right; left; (split; [reflexivity|]); apply O; [left; now apply S|right; now apply R].
  - match goal with |- _ <-> exists h, In h [?g; ?g'] /\ _ =>
      assert (S : same (many (value_expression en) ;; nulls_l ;; opt returning) (skim en g));
      [|assert (R : same (opt returning) (skim en g')) by apply s_opt, s_returning] end.
    { cbn [h_seq]. apply s_then; [apply s_many, s_value|]. apply s_then; [apply s_nulls|]. apply s_opt, s_returning. }
    assert (O : (opt (many (value_expression en) ;; nulls_l) ;; opt returning) ts
      <-> (many (value_expression en) ;; nulls_l ;; opt returning) ts \/ opt returning ts).
    { rewrite opt_first. now rewrite (sq_assoc (many (value_expression en)) _ _ ts). }
    split.
    + intros H. destruct H as [H|[H|[H|[H|[_ H]]]]]; try solve [intuition congruence]. apply O in H as [H|H].
      * eexists. split; [now left|]. now apply S.
      * eexists. split; [right; now left|]. now apply R.
    + intros (h & [<-|[<-|[]]] & H); right; right; right; right; (split; [reflexivity|]); apply O; [left; now apply S|right; now apply R].
  - split; [intuition congruence|]. intros (h & [] & _).
Qed.
Print Assumptions C66_json.

(** * Table functions *)
Lemma ends_same en a A : same A (skim en a) -> same A (skim en (HThen a HEnds)).
Proof. intro H. eapply same_trans; [apply sq_nil|]. apply s_then; [exact H|apply s_ends]. Qed.
Definition partition_l en : lang := kw "PARTITION" ;; kw "BY" ;; (round (opt (many (expr_l en))) || expr_l en).
Definition prune_l : lang := (kw "PRUNE" ;; kw "WHEN" ;; kw "EMPTY") || (kw "KEEP" ;; kw "WHEN" ;; kw "EMPTY").
Definition sorted_l en : lang := kw "ORDER" ;; kw "BY" ;; (round (many (sort_l en)) || sort_l en).
Lemma s_partition en : same (partition_l en) (skim en h_partition).
Proof.
  unfold partition_l, h_partition. cbn [h_seq h_any]. apply s_then; [apply s_kw|]. apply s_then; [apply s_kw|].
  eapply same_trans; [|apply s_alt; [apply ends_same, s_round, s_nil|apply s_alt; [apply ends_same, s_round, s_many, s_expr|apply s_expr]]].
  intro ts. unfold alt, round, opt. split.
  - intros [(t & -> & [->|M])|E]; eauto.
  - intros [(t & -> & ->)|[(t & -> & M)|E]]; eauto.
Qed.
Lemma s_prune en : same prune_l (skim en h_prune).
Proof. unfold prune_l, h_prune, h_words. cbn [h_seq h_any map]. skel. Qed.
Lemma s_sorted en : same (sorted_l en) (skim en h_sorted).
Proof. unfold sorted_l, h_sorted, h_words. cbn [h_seq h_any map]. repeat apply s_then; [apply s_kw|apply s_kw|]. apply s_alt; [apply ends_same|]; skel. Qed.
Lemma s_argument en : same (table_argument en) (skim en h_table_argument).
Proof.
  set (R := kw "TABLE" ;; (round path_l || round (query_l en))).
  set (N := opt (kw "AS") ;; name_l ;; opt (round (many name_l))).
  set (P := partition_l en). set (Q := prune_l). set (S := sorted_l en).
  assert (HP : same P (skim en h_partition)) by apply s_partition. assert (HQ : same Q (skim en h_prune)) by apply s_prune.
  assert (HS : same S (skim en h_sorted)) by apply s_sorted.
  assert (HN : same N (skim en h_table_alias)) by (unfold N, h_table_alias; cbn [h_seq]; skel).
  assert (HR : same R (skim en h_argument_relation)) by (unfold R, h_argument_relation; skel).
  assert (T : same (opt N ;; opt P ;; opt Q ;; opt S)
    ((P ;; opt Q ;; opt S) || ((Q ;; opt S) || (S || ((N ;; opt P ;; opt Q ;; opt S) || (fun ts => ts = [])))))).
  { intro ts. unfold alt. rewrite opt_first, (opt_first P), (opt_first Q), (opt_alone S). tauto. }
  unfold h_table_argument. cbn [h_any h_seq].
  eapply same_trans; [|apply s_then; [exact HR|]].
  2:{ apply s_alt; [apply s_then; [exact HP|apply s_then; apply s_opt; [exact HQ|exact HS]]|].
      apply s_alt; [apply s_then; [exact HQ|apply s_opt; exact HS]|].
      apply s_alt; [exact HS|]. apply s_alt; [|apply s_nil].
      apply s_then; [exact HN|]. apply s_then; [apply s_opt; exact HP|]. apply s_then; apply s_opt; [exact HQ|exact HS]. }
  eapply same_trans; [|apply same_sq; [apply same_refl|exact T]].
  change (table_argument en) with ((kw "TABLE" ;; (round path_l || round (query_l en)) ;; opt N) ;; opt P ;; opt Q ;; opt S).
  eapply same_trans; [|apply sq_assoc]. apply same_sq; [|apply same_refl]. unfold R. apply same_sym, sq_assoc.
Qed.
Lemma s_descriptor en : same descriptor (skim en h_descriptor).
Proof. unfold descriptor, h_descriptor, h_words. cbn [h_seq map]. skel. Qed.
Lemma s_function_argument en : same (function_argument en) (skim en h_function_argument).
Proof.
  set (V := table_argument en || (descriptor || expr_l en)).
  assert (HV : same V (skim en h_table_value)).
  { unfold V, h_table_value. cbn [h_any]. apply s_alt; [apply ends_same, s_argument|]. apply s_alt; [apply ends_same, s_descriptor|apply ends_same, s_expr]. }
  unfold h_function_argument. cbn [h_seq].
  eapply same_trans; [|apply s_alt; [apply s_then; [apply s_name|apply s_then; [apply s_sg; cbn; auto|exact HV]]|exact HV]].
  intro ts. unfold function_argument. fold V. rewrite opt_first, (sq_assoc name_l _ _ ts). reflexivity.
Qed.
Theorem C66_table : forall en ts, table_call en ts <-> means en (FSkim h_table_call) ts.
Proof.
  intros en. change (same (table_call en) (skim en h_table_call)).
  assert (C : same copartition (skim en h_copartition)) by (unfold copartition, h_copartition; cbn [h_seq]; skel).
  unfold table_call, h_table_call. apply s_then; [apply s_path|].
  eapply same_trans; [|apply s_alt; apply s_round; [apply s_then; [apply s_many, s_function_argument|apply s_opt, C]|apply s_opt, C]].
  intro ts. unfold alt, round. split.
  - intros (t & -> & H). apply opt_first in H as [H|H]; eauto.
  - intros [(t & -> & H)|(t & -> & H)]; exists t; (split; [reflexivity|]); apply opt_first; auto.
Qed.
Print Assumptions C66_table.

(** * They vanish *)
(** convert.py has no visitor for these: [None] is returned, whatever is written in
    the call. *)
Theorem C66_path_lost : forall en k ta p tail ts s,
  derives en PWhole ta -> In tail (json_tails k) -> written ts s ->
  map norm ts = map norm (K k :: paren (ta ++ TSym "," :: TString p :: map K tail)) ->
  expression_from_sql en s = Ok NNone.
Proof. intros en k ta p tail ts s D T W E. exact (C60_expression en _ ts s (d_json_path en k ta p tail T D) W E). Qed.
Print Assumptions C66_path_lost.
Theorem C66_default_lost : forall en ta p td w ts s,
  derives en PWhole ta -> derives en PWhole td -> In w ["EMPTY"; "ERROR"] -> written ts s ->
  map norm ts = map norm (K "JSON_VALUE" :: paren (ta ++ TSym "," :: TString p :: K "DEFAULT" :: td ++ [K "ON"; K w])) ->
  expression_from_sql en s = Ok NNone.
Proof. intros en ta p td w ts s D D' T W E. exact (C60_expression en _ ts s (d_json_default en ta p td w T D D') W E). Qed.
Print Assumptions C66_default_lost.
Theorem C66_array_lost : forall en n tl tail ts s,
  derives en (PList (repeat PWhole n)) tl -> In tail json_nulls -> written ts s ->
  map norm ts = map norm (K "JSON_ARRAY" :: paren (tl ++ map K tail)) ->
  expression_from_sql en s = Ok NNone.
Proof. intros en n tl tail ts s D T W E. exact (C60_expression en _ ts s (d_json_array en n tl tail T D) W E). Qed.
Print Assumptions C66_array_lost.
Theorem C66_object_lost : forall en n tl tail ts s,
  derives en (PList (repeat PMember n)) tl -> In tail (each_of json_nulls json_unique) -> written ts s ->
  map norm ts = map norm (K "JSON_OBJECT" :: paren (tl ++ map K tail)) ->
  expression_from_sql en s = Ok NNone.
Proof. intros en n tl tail ts s D T W E. exact (C60_expression en _ ts s (d_json_object en n tl tail T D) W E). Qed.
Print Assumptions C66_object_lost.
(** convert.py 1286: a query from a table function is a query from nowhere, and a
    condition on a JSON function is no condition. *)
Theorem C66_table_lost : forall en d tq l tl f n ta twh gb tgb thv ws tws ts s,
  quantity d tq -> derives en (PList (map PItem l)) tl ->
  f <> [] -> derives en (PList (repeat PArgument n)) ta -> lost en "WHERE" twh ->
  derives en (PGroupBy gb) tgb -> lost en "HAVING" thv -> derives en (PWindows ws) tws ->
  constructs (NSelect l None None gb None d ws no_qattrs) ->
  written ts s ->
  map norm ts = map norm (K "SELECT" :: tq ++ tl ++ (K "FROM" :: K "TABLE" :: paren (dotted f ++ paren ta)) ++ twh ++ tgb ++ thv ++ tws) ->
  query_from_sql en s = Ok (NSelect l None None gb None d ws no_qattrs).
Proof.
  intros en d tq l tl f n ta twh gb tgb thv ws tws ts s Q L F A W G H Ws C Wr E.
  assert (D : derives en (PQuery (dressed (mkQ [] [] None None) (NSelect l None None gb None d ws no_qattrs)))
    ([] ++ (K "SELECT" :: tq ++ tl ++ (K "FROM" :: K "TABLE" :: paren (dotted f ++ paren ta)) ++ twh ++ tgb ++ thv ++ tws) ++ [] ++ [] ++ [])).
  { apply d_query; [apply d_with_none | | apply d_order_none | apply off_none | apply lim_none].
    apply (d_term_tighter _ 3); [lia|]. apply d_core. apply d_select; auto.
    - now apply (d_from_table en f n).
    - apply lost_clause; [cbn; auto | exact W].
    - apply lost_clause; [cbn; auto | exact H]. }
  apply (C59_query en _ _ ts s D Wr). rewrite !app_nil_r. exact E.
Qed.
Print Assumptions C66_table_lost.

(** ** Cases *)
Example C66_case_texts :
  map (expression_from_sql bare_env)
    ["JSON_EXISTS(a.b, 'lax $.x' UNKNOWN ON ERROR)";
     "json_value(a FORMAT JSON ENCODING UTF8, '$.x' PASSING 1 + 2 AS n, b AS m RETURNING bigint DEFAULT 0 ON EMPTY ERROR ON ERROR)";
     "JSON_QUERY(a, '$' RETURNING timestamp(3) with conditional array wrapper omit quotes on scalar STRING NULL ON EMPTY EMPTY OBJECT ON ERROR)";
     "JSON_OBJECT(KEY 'a' VALUE 1, 'b' VALUE x, 'c': JSON_ARRAY() NULL ON NULL WITHOUT UNIQUE KEYS RETURNING varchar FORMAT JSON)";
     "JSON_ARRAY(a, b FORMAT JSON, 3 ABSENT ON NULL)"; "JSON_OBJECT()"; "JSON_ARRAY(RETURNING varchar(10))"]
  = repeat (Ok NNone) 7.
Proof. vm_compute. reflexivity. Qed.
(** The condition and the relation are gone. *)
Example C66_case_query :
  query_from_sql bare_env
    "SELECT a FROM TABLE(s.f(DESCRIPTOR(x bigint, y), TABLE(t) AS u (c, d) PARTITION BY (a, b) KEEP WHEN EMPTY ORDER BY c DESC, n => 3 + 4, CAST(NULL AS DESCRIPTOR) COPARTITION (t, u), (v, w, z))) WHERE JSON_EXISTS(a, '$.b')"
  = query_from_sql bare_env "SELECT a".
Proof. vm_compute. reflexivity. Qed.
(** What is inside is visited all the same, and what is not of the grammar is refused. *)
Example C66_case_inside :
  map (expression_from_sql bare_env) ["JSON_ARRAY(a, ?)"; "JSON_OBJECT(a b)"; "JSON_ARRAY(a NULL ON EMPTY)";
     "JSON_VALUE(a)"; "JSON_QUERY(a, '$' KEEP QUOTES ON SCALAR string)"; "JSON_EXISTS(a, '$' NULL ON ERROR)"; "JSON_QUERY(a, '$' WITH WRAPPER WITHOUT WRAPPER)"; "JSON_ARRAY(`a`)"]
  = [Err NotImplementedError; Err SyntaxErr; Err SyntaxErr; Err SyntaxErr; Err SyntaxErr; Err SyntaxErr; Err SyntaxErr; Err NotImplementedError].
Proof. vm_compute. reflexivity. Qed.
(** The hypotheses of the theorems above. *)
Local Definition text_json : string :=
  "json_query(json_object(KEY a VALUE b, 'c' : json_array(a, b null on null) with UNIQUE), '$.b' with WRAPPER ERROR ON ERROR)".
Lemma json_nothing en : exists ts, derives en PNothing ts /\ map norm (lex text_json) = map norm ts.
Proof.
  assert (A : derives en PWhole [TId "a"]) by (eapply d_whole; name).
  assert (B : derives en PWhole [TId "b"]) by (eapply d_whole; name).
  assert (C : derives en PWhole [TString "'c'"]) by (eapply d_whole; at_ 9; apply (d_string en "'c'"); val).
  eexists. split.
  - eapply (d_json_path en "JSON_QUERY" _ "'$.b'" ["WITH"; "WRAPPER"; "ERROR"; "ON"; "ERROR"]).
    + apply in_flat_map. exists ["WITH"; "WRAPPER"]. split; [cbn; auto|]. apply in_map_iff.
      exists ["ERROR"; "ON"; "ERROR"]. split; [reflexivity|]. vm_compute. auto.
    + apply d_whole_nothing. eapply (d_json_object en 2 _ ["WITH"; "UNIQUE"]); [vm_compute; auto|].
      eapply d_more; [apply d_member_key; [exact A|exact B]|]. apply d_one.
      apply d_member_colon; [exact C|reflexivity|]. apply d_whole_nothing.
      eapply (d_json_array en 2 _ ["NULL"; "ON"; "NULL"]); [vm_compute; auto|]. apply d_more; [exact A|]. apply d_one. exact B.
  - vm_compute. reflexivity.
Qed.
Example C66_case_lost : expression_from_sql bare_env text_json = Ok NNone.
Proof.
  destruct (json_nothing bare_env) as (ts & D & E). unfold expression_from_sql.
  rewrite <- expression_norm, E, expression_norm. now apply nothing_derived.
Qed.
Local Definition text_table : string := "SELECT a FROM TABLE(s.f(b, n => c, TABLE(t.u))) WHERE json_exists(b, '$')".
Lemma table_derived en : exists ts, derives en (PQuery (NSelect [column "a"] None None None None false [] no_qattrs)) ts
  /\ map norm (lex text_table) = map norm ts.
Proof.
  eexists. split.
  - change (NSelect [column "a"] None None None None false [] no_qattrs)
      with (dressed (mkQ [] [] None None) (NSelect [column "a"] None None None None false [] no_qattrs)).
    apply d_query; [apply d_with_none | | apply d_order_none | apply off_none | apply lim_none].
    apply (d_term_tighter _ 3); [lia|]. apply d_core. apply d_select.
    + apply qty_none.
    + apply d_one. apply d_item. name.
    + eapply (d_from_table en ["s"; "f"] 3); [discriminate|].
      apply d_more; [apply d_argument; [eapply d_whole; name|reflexivity]|].
      apply d_more; [apply (d_argument_named en "n" [TId "c"]); [eapply d_whole; name|reflexivity]|].
      apply d_one. apply (d_argument_table en ["t"; "u"]). discriminate.
    + apply (d_lost en [K "WHERE"]); [cbn; auto|]. apply (d_json_path en "JSON_EXISTS" [TId "b"] "'$'" []); [vm_compute; auto|].
      eapply d_whole; name.
    + apply d_groupby_none.
    + apply d_absent.
    + apply d_windows_none.
    + val.
  - vm_compute. reflexivity.
Qed.
Example C66_case_table : query_from_sql bare_env text_table = Ok (NSelect [column "a"] None None None None false [] no_qattrs).
Proof. destruct (table_derived bare_env) as (ts & D & E). exact (C59_lexed_query _ _ _ _ D E). Qed.
(** The languages above are not empty. *)
Example C66_case_language : json_text bare_env "JSON_ARRAY" (lex "a + 1, b FORMAT JSON ABSENT ON NULL").
Proof.
  right. right. right. right. split; [reflexivity|].
  exists (lex "a + 1, b FORMAT JSON ABSENT ON NULL"), []. split; [reflexivity|]. split; [right|now left].
  exists (lex "a + 1, b FORMAT JSON"), (lex "ABSENT ON NULL"). split; [reflexivity|]. split.
  - apply (many_more _ (lex "a + 1") (lex "b FORMAT JSON")).
    + exists (lex "a + 1"), []. split; [reflexivity|]. split; [|now left].
      eexists. eapply (C63_expression bare_env "a + 1"). vm_compute. reflexivity.
    + apply many_one. exists (lex "b"), (lex "FORMAT JSON"). split; [reflexivity|]. split.
      * eexists. eapply (C63_expression bare_env "b"). vm_compute. reflexivity.
      * right. exists (lex "FORMAT"), (lex "JSON"). split; [reflexivity|]. split; [now exists "FORMAT"|].
        exists (lex "JSON"), []. split; [reflexivity|]. split; [now exists "JSON"|now left].
  - right. right. exists (lex "ABSENT"), (lex "ON NULL"). split; [reflexivity|]. split; [now exists "ABSENT"|].
    exists (lex "ON"), (lex "NULL"). split; [reflexivity|]. split; [now exists "ON"|now exists "NULL"].
Qed.
