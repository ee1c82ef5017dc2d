(** C63: whatever is accepted is a phrase of the language, and the object that is
    returned is the meaning of that phrase.

    The rules of the language are those of Accepts.v; they cover every form that the
    model of the parser reads, in any spelling of the words and with any layout, and
    they say nothing of how a text is read. *)
From Coq Require Import String Ascii List Bool Arith NArith ZArith Lia.
From Verif Require Import PyStr StrFacts Types Inference Lexer TypeParser Functions Ast Sql Walk Parser Tokens NodeFacts
  ParseMore ParseMoreQ Typing PropertiesRules Grammar GrammarFacts PropertiesGrammar Accepts AcceptFacts AcceptExpr AcceptCalls
  AcceptPrim AcceptQuery.
Import ListNotations.
Open Scope nat_scope.
Open Scope string_scope.
Open Scope list_scope.

(** convert.py 104-108 *)
Theorem C63_expression : forall en s e, expression_from_sql en s = Ok e -> means en (FExpr 1 e) (lex s).
Proof.
  intros en s e H. unfold expression_from_sql, expression_of_tokens in H. apply bind_inv in H as ([v r] & P & H).
  destruct r; [|discriminate]. subst v. destruct (all_rules en (parse_fuel (lex s))) as (B & _).
  apply (B 0 ltac:(lia)) in P as (p & -> & V). rewrite app_nil_r. now apply V.
Qed.
Print Assumptions C63_expression.
(** convert.py 99-103: the rule [query] does not end with the end of the text, and
    what is after the query is not looked at. *)
Theorem C63_query : forall en s q, query_from_sql en s = Ok q ->
  exists ts rest, lex s = ts ++ rest /\ means en (FQuery q) ts.
Proof.
  intros en s q H. unfold query_from_sql, query_of_tokens in H. apply bind_inv in H as ([v r] & P & H).
  subst v. destruct (all_rules en (parse_fuel (lex s))) as (_ & _ & _ & Q & _).
  apply Q in P as (p & -> & V). exists p, r. split; [reflexivity|]. now apply V.
Qed.
Print Assumptions C63_query.

(** convert.py 112-113, 492-610: the type is made from a phrase of [type] (652-672). *)
Theorem C63_type : forall s r, type_from_sql s = Ok r -> exists p, syntax (TType p) (lex s) /\ visit_type p = Ok r.
Proof.
  intros s r H. unfold type_from_sql in H. apply bind_inv in H as (p & P & H). exists p. split; [|exact H].
  unfold p_standalone_type in P. apply bind_inv in P as ([t q] & P & E). destruct q; [|discriminate]. injection E as ->.
  apply p_type_eats in P as (pre & -> & S). now rewrite app_nil_r.
Qed.
Print Assumptions C63_type.

(** * Brackets *)
(** Every bracket that is opened is closed by one of its kind, in the right order;
    [st] holds the brackets that are still to be closed. *)
Fixpoint closed (st : list string) (ts : list token) : bool :=
  match ts with
  | [] => match st with [] => true | _ => false end
  | TSym s :: ts =>
      if String.eqb s "(" then closed (")" :: st) ts
      else if String.eqb s "[" then closed ("]" :: st) ts
      else if (String.eqb s ")" || String.eqb s "]")%bool
      then match st with x :: st => (String.eqb x s && closed st ts)%bool | [] => false end
      else closed st ts
  | _ :: ts => closed st ts
  end.
Definition neutral (ts : list token) : Prop := forall st r, closed st (ts ++ r) = closed st r.
Lemma neutral_nil : neutral [].
Proof. intros st r. reflexivity. Qed.
Lemma neutral_app a b : neutral a -> neutral b -> neutral (a ++ b).
Proof. intros A B st r. rewrite <- app_assoc. now rewrite A, B. Qed.
Definition plain (t : token) : bool :=
  match t with TSym s => negb (mem s ["("; "["; ")"; "]"]) | _ => true end.
Lemma neutral_cons t a : plain t = true -> neutral a -> neutral (t :: a).
Proof.
  intros P A st r. cbn [app]. destruct t; try exact (A st r). cbn [closed]. unfold plain in P. cbn [mem existsb] in P.
  destruct (String.eqb s "("); [discriminate|]. destruct (String.eqb s "["); [discriminate|].
  destruct (String.eqb s ")"); [discriminate|]. destruct (String.eqb s "]"); [discriminate|]. apply A.
Qed.
Lemma neutral_round a b : neutral a -> neutral b -> neutral (TSym "(" :: a ++ TSym ")" :: b).
Proof. intros A B st r. cbn [app]. rewrite <- app_assoc. change (closed (")" :: st) (a ++ (TSym ")" :: b) ++ r) = closed st r). rewrite A. exact (B st r). Qed.
Lemma neutral_square a b : neutral a -> neutral b -> neutral (TSym "[" :: a ++ TSym "]" :: b).
Proof. intros A B st r. cbn [app]. rewrite <- app_assoc. change (closed ("]" :: st) (a ++ (TSym "]" :: b) ++ r) = closed st r). rewrite A. exact (B st r). Qed.
Create HintDb ne.
#[local] Hint Resolve neutral_nil neutral_app neutral_round neutral_square : ne.
#[local] Hint Extern 3 (neutral (_ :: _)) => apply neutral_cons; [reflexivity|] : ne.
Lemma neutral_one t : plain t = true -> neutral [t].
Proof. intro H. now apply neutral_cons; [|apply neutral_nil]. Qed.
Lemma ne_name n ts : name n ts -> neutral ts.
Proof. intros []; auto with ne. Qed.
Lemma ne_text n ts : text n ts -> neutral ts.
Proof. intros []; auto with ne. Qed.
#[local] Hint Resolve ne_name ne_text : ne.
Lemma ne_name_list n ts : name_list n ts -> neutral ts.
Proof. induction 1; eauto with ne. Qed.
Lemma ne_path n ts : path n ts -> neutral ts.
Proof. induction 1; eauto with ne. Qed.
#[local] Hint Resolve ne_name_list ne_path : ne.
Lemma ne_paths ts : paths ts -> neutral ts.
Proof. induction 1; eauto with ne. Qed.
Lemma ne_cols l ts : cols l ts -> neutral ts.
Proof. intros []; unfold paren; eauto with ne. Qed.
#[local] Hint Resolve ne_paths ne_cols : ne.
Lemma ne_paren ts : neutral ts -> neutral (paren ts).
Proof. unfold paren. auto with ne. Qed.
#[local] Hint Resolve ne_paren : ne.
Lemma ne_paren_app ts us : neutral ts -> neutral us -> neutral (paren ts ++ us).
Proof. auto with ne. Qed.
(** One token, or one part, at a time. *)
Lemma closed_cons t st ts : plain t = true -> closed st (t :: ts) = closed st ts.
Proof. intro P. pose proof (neutral_cons t [] P neutral_nil st ts) as H. exact H. Qed.
Ltac walk :=
  unfold paren; let st := fresh "st" in let r := fresh "r" in intros st r; repeat (progress (rewrite <- ?app_assoc; cbn [app]));
  repeat match goal with
  | |- closed ?a ?b = closed ?a ?b => reflexivity
  | |- closed ?a (TSym "(" :: ?b) = _ => change (closed a (TSym "(" :: b)) with (closed (")" :: a) b)
  | |- closed ?a (TSym "[" :: ?b) = _ => change (closed a (TSym "[" :: b)) with (closed ("]" :: a) b)
  | |- closed (")" :: ?a) (TSym ")" :: ?b) = _ => change (closed (")" :: a) (TSym ")" :: b)) with (closed a b)
  | |- closed ("]" :: ?a) (TSym "]" :: ?b) = _ => change (closed ("]" :: a) (TSym "]" :: b)) with (closed a b)
  | |- closed _ (_ :: _) = _ => rewrite closed_cons by solve [reflexivity|assumption|eauto 2]
  | |- closed _ (?t ++ _) = _ => let N := fresh in assert (N : neutral t) by eauto with ne; rewrite N; clear N
  end.
Ltac small := let H := fresh in intro H; destruct H; eauto with ne.
Lemma ne_negation b ts : negation b ts -> neutral ts. Proof. small. Qed.
Lemma ne_sign b ts : sign b ts -> neutral ts. Proof. small. Qed.
Lemma ne_word k t : word k t -> plain t = true.
Proof. intros [x ->]. reflexivity. Qed.
Lemma ne_field u f : field_word u f -> plain u = true.
Proof. intros (k & -> & _). reflexivity. Qed.
Lemma ne_upto o ts : upto o ts -> neutral ts.
Proof. intros [|t u f T U]; auto using neutral_nil. apply ne_word in T. apply ne_field in U. auto using neutral_cons, neutral_nil. Qed.
Lemma ne_anyq ts : any_quantifier ts -> neutral ts. Proof. small. Qed.
Lemma ne_quant a b ts : quant a b ts -> neutral ts. Proof. small. Qed.
Lemma ne_as a ts : as_name a ts -> neutral ts. Proof. small. Qed.
Lemma ne_separated a ts : separated a ts -> neutral ts. Proof. small. Qed.
Lemma ne_filled a ts : filled a ts -> neutral ts. Proof. small. Qed.
#[local] Hint Resolve ne_negation ne_sign ne_upto ne_anyq ne_quant ne_as ne_separated ne_filled : ne.
Lemma ne_overflow a ts : on_overflow a ts -> neutral ts. Proof. intros []; walk. Qed.
Lemma ne_trim ts : trim_part ts -> neutral ts. Proof. small. Qed.
Lemma ne_outer ts : outer_word ts -> neutral ts. Proof. small. Qed.
#[local] Hint Resolve ne_overflow ne_trim ne_outer : ne.
Lemma ne_join j ts : join_kind j ts -> neutral ts. Proof. small. Qed.
Lemma ne_rows ts : rows ts -> neutral ts. Proof. small. Qed.
#[local] Hint Resolve ne_join ne_rows : ne.
Lemma ne_offset a ts : offset_of a ts -> neutral ts. Proof. intros [|x s r [->|R]]; eauto with ne. Qed.
Lemma ne_limit a ts : limit_of a ts -> neutral ts.
Proof.
  intros [| | |x k y c r e _ C R E]; eauto with ne.
  assert (neutral c) by (destruct C as [->|[[s ->]| ->]]; auto with ne).
  assert (neutral e) by (destruct E as [[u ->]|(u & v & ->)]; auto with ne). apply ne_rows in R. walk.
Qed.
Lemma ne_zone a ts : zone a ts -> neutral ts. Proof. small. Qed.
Lemma ne_ident i t : ident_token i t -> plain t = true. Proof. intros []; reflexivity. Qed.
Lemma ne_direction d ts : direction d ts -> neutral ts. Proof. intros []; eauto using neutral_cons, neutral_nil, ne_word. Qed.
Lemma ne_nulls d ts : nulls d ts -> neutral ts. Proof. intros []; eauto using neutral_cons, neutral_nil, ne_word. Qed.
Lemma ne_treatment d ts : treatment d ts -> neutral ts. Proof. intros []; eauto using neutral_cons, neutral_nil, ne_word. Qed.
#[local] Hint Resolve ne_offset ne_limit ne_zone ne_direction ne_nulls ne_treatment : ne.
Lemma ne_interval e ts : interval e ts -> neutral ts.
Proof. intros [m tm v tv u f g tg S T U G _]. apply ne_field in U. apply neutral_app; [eauto with ne|]. apply neutral_app; [eauto with ne|]. apply neutral_cons; eauto with ne. Qed.
Lemma ne_syntax f ts : syntax f ts -> neutral ts.
Proof.
  induction 1; try match goal with H : field_word _ _ |- _ => apply ne_field in H end;
    try match goal with H : ident_token _ _ |- _ => apply ne_ident in H end; try solve [walk]; auto.
Qed.
Lemma ne_type t ts : type_means t ts -> neutral ts.
Proof. intros (p & r & H & _). now apply ne_syntax in H. Qed.
#[local] Hint Resolve ne_interval ne_type : ne.
Lemma means_neutral en f ts : means en f ts -> neutral ts.
Proof.
  induction 1.
  all: try solve [walk].
  all: try solve [eauto 2 with ne].
  all: try solve [eapply ne_syntax; eassumption].
  all: try match goal with |- neutral [TSym _] => cbn [In] in H; destruct H as [<-|[<-|[<-|[]]]]; now apply neutral_one end.
  - repeat (destruct H as [H|H]; [injection H as <- <-; walk|]). destruct H.
  - repeat (destruct H as [H|H]; [injection H as <- <-; walk|]). destruct H.
  - repeat (destruct H as [H|H]; [injection H as <- <-; walk|]). destruct H.
  - assert (neutral tl) by (destruct H as [[_ ->]|H]; eauto with ne). walk.
  - assert (neutral tf) by (destruct H0 as [->|(k & y & _ & ->)]; auto with ne). walk.
  - assert (neutral ts) by (destruct H1 as [[_ ->]|(a & ta & N & _ & ->)]; [auto with ne|apply ne_name in N; walk]). walk.
  - assert (neutral ts) by (destruct H as [->|H]; eauto with ne). walk.
  - assert (neutral tp) by (destruct H as [[_ ->]|(n & _ & H)]; eauto with ne). walk.
Qed.
Lemma neutral_closed ts : neutral ts -> closed [] ts = true.
Proof. intro H. rewrite <- (app_nil_r ts). now rewrite H. Qed.
Theorem C63_brackets : forall en s e, expression_from_sql en s = Ok e -> closed [] (lex s) = true.
Proof. intros en s e H. apply C63_expression in H. apply neutral_closed. now apply means_neutral in H. Qed.
Print Assumptions C63_brackets.
Theorem C63_query_brackets : forall en s q, query_from_sql en s = Ok q ->
  exists ts rest, lex s = ts ++ rest /\ means en (FQuery q) ts /\ closed [] ts = true.
Proof.
  intros en s q H. apply C63_query in H as (ts & rest & -> & M). exists ts, rest. repeat apply conj; [reflexivity|exact M|].
  apply neutral_closed. now apply means_neutral in M.
Qed.
Print Assumptions C63_query_brackets.

Theorem C63_type_brackets : forall s r, type_from_sql s = Ok r -> closed [] (lex s) = true.
Proof. intros s r H. apply C63_type in H as (p & S & _). apply neutral_closed. now apply ne_syntax in S. Qed.
Print Assumptions C63_type_brackets.

(** * The first word of a query *)
Definition query_start (t : token) : Prop :=
  t = TSym "(" \/ exists k x, In k ["WITH"; "SELECT"; "TABLE"; "VALUES"] /\ t = TKw k x.
Lemma means_start en f ts : means en f ts ->
  match f with FTerm _ _ | FBody _ | FQuery _ => exists t r, ts = t :: r /\ query_start t | _ => True end.
Proof.
  induction 1; try exact Logic.I; try assumption.
  1, 2, 3, 7: do 2 eexists; (split; [reflexivity|]); right; do 2 eexists; (split; [|reflexivity]); cbn [In]; auto.
  - do 2 eexists; (split; [reflexivity|]). now left.
  - destruct IHmeans1 as (t & r' & -> & S). cbn [app]. eauto.
  - destruct IHmeans1 as (t & r & -> & S). cbn [app]. eauto.
Qed.
Theorem C63_query_start : forall en s q, query_from_sql en s = Ok q -> exists t r, lex s = t :: r /\ query_start t.
Proof.
  intros en s q H. apply C63_query in H as (ts & rest & -> & M). apply means_start in M as (t & r & -> & S). cbn [app]. eauto.
Qed.
Print Assumptions C63_query_start.

(** * The rules of Grammar.v *)
(** The phrases of C59 are phrases here, with the same meaning. *)
Theorem C63_derived : forall en c e ts, derives en (PExpr c e) ts -> means en (FExpr 1 e) ts.
Proof.
  intros en c e ts D. apply expression_derived in D. unfold expression_of_tokens in D. apply bind_inv in D as ([v r] & P & H).
  destruct r; [|discriminate]. subst v. destruct (all_rules en (parse_fuel ts)) as (B & _).
  apply (B 0 ltac:(lia)) in P as (p & -> & V). rewrite app_nil_r. now apply V.
Qed.
Print Assumptions C63_derived.

(** * Cases *)
(** Words in any case, names that are keywords, comments, and forms outside of C59. *)
Example C63_case_text : expression_from_sql full_env
  "year.month NOT in (1, day) or count(distinct ALL_) FILTER (where a[1] > .5) >= current_timestamp(3)" =
  Ok (NBin BOr
    (NUn UNot (NInList (NField "month" (TRStr "year") unknown) [NLit (LInt 1) (TSimple SInteger); NField "day" TRNone unknown]))
    (NBin BGe
      (NFunc FCount [NField "ALL_" TRNone unknown]
        (mkFopts [] (Some (NBin BGt (NSubscript (NField "a" TRNone unknown) (NLit (LInt 1) (TSimple SInteger)))
                                    (NLit (LDec (mkDec false 5 (-1))) (TDecimal 2 1)))) None false))
      (NDateTime FCurrentTimestamp 3))).
Proof. vm_compute. reflexivity. Qed.
Example C63_case_means : exists e, means full_env (FExpr 1 e) (lex
  "year.month NOT in (1, day) or count(distinct ALL_) FILTER (where a[1] > .5) >= current_timestamp(3)").
Proof. eexists. apply C63_expression. exact C63_case_text. Qed.
(** What is after a query is not part of the phrase. *)
Example C63_case_query : exists q,
  query_from_sql full_env "SELECT a, (1) x FROM (t) WHERE (b = 'v') ) nonsense" = Ok q
  /\ closed [] (lex "SELECT a, (1) x FROM (t) WHERE (b = 'v') ) nonsense") = false
  /\ exists ts rest, lex "SELECT a, (1) x FROM (t) WHERE (b = 'v') ) nonsense" = ts ++ rest
       /\ means full_env (FQuery q) ts /\ closed [] ts = true.
Proof.
  eexists. repeat apply conj; [vm_compute; reflexivity|vm_compute; reflexivity|].
  apply C63_query_brackets. vm_compute. reflexivity.
Qed.
(** A bracket of the wrong kind; a statement that is no query. *)
Example C63_case_brackets : forall e, expression_from_sql full_env "a[f(b])" <> Ok e.
Proof. intros e H. apply C63_brackets in H. vm_compute in H. discriminate. Qed.
Example C63_case_start : forall q, query_from_sql full_env "INSERT INTO t SELECT a FROM b" <> Ok q.
Proof.
  intros q H. apply C63_query_start in H as (t & r & E & [->|(k & x & I & ->)]); vm_compute in E; [discriminate|].
  injection E as <- <- _. cbn [In] in I. repeat (destruct I as [I|I]; [discriminate I|]). destruct I.
Qed.
Example C63_case_type : exists r, type_from_sql "map(decimal(5,2), timestamp(3) with time zone array)" = Ok r.
Proof. eexists. vm_compute. reflexivity. Qed.
Example C63_case_type_brackets : forall r, type_from_sql "decimal(5,2" <> Ok r.
Proof. intros r H. apply C63_type_brackets in H. vm_compute in H. discriminate. Qed.
