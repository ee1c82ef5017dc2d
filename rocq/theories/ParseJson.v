(** Facts about the parser: the JSON functions, which are read as nothing (C59, C60). *)
From Coq Require Import String Ascii List ZArith NArith Bool Lia Arith.
From Verif Require Import PyStr StrFacts Types Inference Lexer LexFacts TypeParser TypeRoundTrip
  Functions Ast Sql Parser Tokens ReadsFacts ParseBase ParseParts ParseExpr ParsePrim ParseForms ParseMain
  ParseRel ParseQuery Grammar ParseNone.
Import ListNotations.
Open Scope nat_scope.
Open Scope string_scope.
Open Scope list_scope.

(** An expression, whatever it is read as. *)
Definition Wh (en : env) (ts : list token) : Prop := exists e, reads_as en e ts.
Notation pe_of en n := (p_bool en n 0).
Notation pq_of en n := (p_query en n).
Definition after_value (rest : list token) : Prop := lev rest = 0 /\ eat_kw "FORMAT" rest = None.
Lemma expr_reads en ts n rest : Wh en ts -> 8 * length ts + 4 <= n -> lev rest = 0 ->
  p_shape (pe_of en n) (pq_of en n) HExpr (ts ++ rest) = Ok (Ok tt, rest).
Proof. intros [e R] Hn L. cbn [p_shape]. rewrite (R n Hn rest L). reflexivity. Qed.
Lemma value_reads en ts n rest : Wh en ts -> 8 * length ts + 4 <= n -> after_value rest ->
  p_shape (pe_of en n) (pq_of en n) h_json_value (ts ++ rest) = Ok (Ok tt, rest).
Proof.
  intros [e R] Hn [L F]. unfold h_json_value. cbn [p_shape h_format]. rewrite (R n Hn rest L). cbn [bind]. unfold h_format. cbn [p_shape].
  rewrite F. reflexivity.
Qed.
Lemma Json_none en k ts : mem k json_words = true ->
  (forall n rest, 8 * length ts + 12 <= n ->
     p_shapes (pe_of en n) (pq_of en n) (json_shapes k) (ts ++ TSym ")" :: rest) = Ok (Ok NNone, rest)) ->
  Nt en (K k :: paren ts).
Proof.
  intros M P. assert (M' : mem k none_words = true).
  { unfold mem, json_words, none_words in *. cbn [existsb] in *. rewrite !orb_true_iff in *. tauto. }
  apply Nt_word; [exact M'|]. intros n rest Hn _. cbn [length app] in *. rewrite app_length in Hn. cbn [length] in Hn.
  specialize (P n rest ltac:(lia)).
  assert (Q : p_json (pe_of en n) (pq_of en n) k (TSym "(" :: ts ++ TSym ")" :: rest) = Ok (Ok NNone, rest)).
  { unfold p_json. rewrite eat_sym_same. cbn [need bind]. exact P. }
  unfold K. cbn [prim_head]. rewrite <- app_assoc. cbn [app]. clear P M' Hn. unfold mem, json_words in M. cbn [existsb] in M. rewrite !orb_true_iff, !String.eqb_eq in M.
  destruct M as [->|[->|[->|[->|[->|M]]]]]; [..|discriminate]; unfold p_keyword;
    cbn [String.eqb Ascii.eqb Bool.eqb mem existsb orb json_words]; exact Q.
Qed.
(** * Functions with a path *)
Lemma then_reads pe pq a b ts r x y r1 : p_shape pe pq a ts = Ok (Ok x, r) -> p_shape pe pq b r = Ok (Ok y, r1) ->
  p_shape pe pq (HThen a b) ts = Ok (Ok y, r1).
Proof. intros A B. cbn [p_shape]. rewrite A. cbn [bind]. rewrite B. reflexivity. Qed.
(** [rest] is what follows the path. *)
Lemma invocation_reads en ts s n rest : Wh en ts -> 8 * length ts + 4 <= n ->
  eat_kw "PASSING" rest = None ->
  p_shape (pe_of en n) (pq_of en n) h_path_invocation (ts ++ TSym "," :: TString s :: rest) = Ok (Ok tt, rest).
Proof.
  intros W Hn P. unfold h_path_invocation. cbn [h_seq].
  eapply then_reads; [apply (value_reads en ts n _ W Hn); split; reflexivity|].
  cbn [p_shape p_string eat_sym String.eqb Ascii.eqb Bool.eqb need bind]. rewrite P. reflexivity.
Qed.
Lemma shapes_reads pe pq h l ts r x : p_shape pe pq h ts = Ok (Ok x, TSym ")" :: r) -> p_shapes pe pq (h :: l) ts = Ok (Ok NNone, r).
Proof. intro H. cbn [p_shapes]. rewrite H. reflexivity. Qed.
Lemma maybe_reads pe pq h ts x r : p_shape pe pq h ts = Ok (x, r) -> p_shape pe pq (HMaybe h) ts = Ok (x, r).
Proof. intro H. cbn [p_shape]. rewrite H. reflexivity. Qed.
Lemma maybe_skips pe pq h ts : p_shape pe pq h ts = Err SyntaxErr -> p_shape pe pq (HMaybe h) ts = Ok (Ok tt, ts).
Proof. intro H. cbn [p_shape]. rewrite H. reflexivity. Qed.
Lemma then_stops pe pq a b ts : p_shape pe pq a ts = Err SyntaxErr -> p_shape pe pq (HThen a b) ts = Err SyntaxErr.
Proof. intro H. cbn [p_shape]. rewrite H. reflexivity. Qed.
Lemma then_fails pe pq a b ts x r : p_shape pe pq a ts = Ok (x, r) -> p_shape pe pq b r = Err SyntaxErr -> p_shape pe pq (HThen a b) ts = Err SyntaxErr.
Proof. intros A B. cbn [p_shape]. rewrite A. cbn [bind]. rewrite B. reflexivity. Qed.
Lemma either_first pe pq a b ts x r : p_shape pe pq a ts = Ok (x, r) -> p_shape pe pq (HEither a b) ts = Ok (x, r).
Proof. intro H. cbn [p_shape]. rewrite H. reflexivity. Qed.
Lemma either_second pe pq a b ts : p_shape pe pq a ts = Err SyntaxErr -> p_shape pe pq (HEither a b) ts = p_shape pe pq b ts.
Proof. intro H. cbn [p_shape]. rewrite H. reflexivity. Qed.
Lemma shapes_next pe pq h l ts : p_shape pe pq h ts = Err SyntaxErr -> p_shapes pe pq (h :: l) ts = p_shapes pe pq l ts.
Proof. intro H. cbn [p_shapes]. rewrite H. reflexivity. Qed.
(** What a function asks for after the path. *)
Definition path_tail (k : string) : skeleton :=
  match json_shapes k with [HThen _ b] => b | _ => HNil end.
Lemma each_in l m t : In t (each_of l m) -> exists a b, In a l /\ In b m /\ t = a ++ b.
Proof.
  unfold each_of. rewrite in_flat_map. intros (a & A & T). apply in_map_iff in T as (b & <- & B). eauto 6.
Qed.
Ltac options H := cbn [In json_wrappers json_quotes in_case map app json_nulls json_unique] in H; repeat (destruct H as [<-|H]; [reflexivity|]); destruct H.
Definition no_kw (l : list string) (ts : list token) : Prop := forall k, In k l -> eat_kw k ts = None.
Lemma wrapper_reads pe pq a r : In a json_wrappers -> no_kw ["WITH"; "WITHOUT"] r ->
  p_shape pe pq (HMaybe (HThen h_wrapper (HKw "WRAPPER"))) (map K a ++ r) = Ok (Ok tt, r).
Proof.
  intros A N. pose proof (N "WITH" ltac:(cbn; auto)) as N1. pose proof (N "WITHOUT" ltac:(cbn; auto)) as N2.
  cbn [In json_wrappers] in A. destruct A as [<-|A].
  { cbn [map app]. unfold h_wrapper. cbn [h_seq p_shape]. rewrite N1, N2. reflexivity. }
  options A.
Qed.
Lemma quotes_reads pe pq a r : In a json_quotes -> no_kw ["KEEP"; "OMIT"; "ON"] r ->
  p_shape pe pq (HMaybe (h_seq [HEither (HKw "KEEP") (HKw "OMIT"); HKw "QUOTES"; HMaybe (h_words ["ON"; "SCALAR"; "STRING"])]))
    (map K a ++ r) = Ok (Ok tt, r).
Proof.
  intros A N. pose proof (N "KEEP" ltac:(cbn; auto)) as N1. pose proof (N "OMIT" ltac:(cbn; auto)) as N2.
  pose proof (N "ON" ltac:(cbn; auto)) as N3. unfold h_words.
  cbn [In json_quotes] in A. destruct A as [<-|[<-|[<-|A]]].
  - cbn [map app h_seq p_shape]. rewrite N1, N2. reflexivity.
  - cbn [map app h_seq p_shape eat_kw K String.eqb Ascii.eqb Bool.eqb need bind orelse]. rewrite N3. reflexivity.
  - cbn [map app h_seq p_shape eat_kw K String.eqb Ascii.eqb Bool.eqb need bind orelse]. rewrite N3. reflexivity.
  - options A.
Qed.
Definition query_cases := [["ERROR"]; ["NULL"]; ["EMPTY"; "ARRAY"]; ["EMPTY"; "OBJECT"]].
Lemma cases_read pe pq a b rest : In a (in_case query_cases "EMPTY") -> In b (in_case query_cases "ERROR") ->
  p_shape pe pq (HThen (HMaybe (HThen h_query_behavior (h_words ["ON"; "EMPTY"]))) (HMaybe (HThen h_query_behavior (h_words ["ON"; "ERROR"]))))
    (map K a ++ map K b ++ TSym ")" :: rest) = Ok (Ok tt, TSym ")" :: rest)
  /\ no_kw ["WITH"; "WITHOUT"; "KEEP"; "OMIT"; "ON"; "PASSING"; "RETURNING"] (map K a ++ map K b ++ TSym ")" :: rest).
Proof.
  intros A B. split.
  - cbn [In in_case query_cases map app] in A, B.
    repeat (destruct A as [<-|A]; [repeat (destruct B as [<-|B]; [reflexivity|]); destruct B|]). destruct A.
  - intros k H. cbn [In] in H. cbn [In in_case query_cases map app] in A, B.
    repeat (destruct A as [<-|A]; [repeat (destruct B as [<-|B]; [repeat (destruct H as [<-|H]; [reflexivity|]); destruct H|]); destruct B|]). destruct A.
Qed.
Lemma no_kw_app a ws l r : (forall t, In t a -> match t with [] => True | w :: _ => ~ In w l end) -> In ws a -> no_kw l r -> no_kw l (map K ws ++ r).
Proof.
  intros A W N k H. specialize (A _ W). destruct ws as [|w ws]; [now apply N|]. cbn [map app eat_kw K].
  destruct (String.eqb_spec w k) as [->|]; [contradiction|reflexivity].
Qed.
Lemma no_kw_less l m r : (forall k, In k l -> In k m) -> no_kw m r -> no_kw l r.
Proof. intros S N k H. apply N. auto. Qed.
Lemma tails_read pe pq k rest tail : In tail (json_tails k) ->
  p_shape pe pq (path_tail k) (map K tail ++ TSym ")" :: rest) = Ok (Ok tt, TSym ")" :: rest)
  /\ eat_kw "PASSING" (map K tail ++ TSym ")" :: rest) = None
  /\ exists b, json_shapes k = [HThen h_path_invocation b].
Proof.
  unfold json_tails. intro H.
  destruct (String.eqb_spec k "JSON_EXISTS") as [->|_];
    [|destruct (String.eqb_spec k "JSON_VALUE") as [->|_]; [|destruct (String.eqb_spec k "JSON_QUERY") as [->|_]; [|destruct H]]];
    (repeat apply conj; [| |eexists; reflexivity]).
  1-4: revert H;
    match goal with |- In _ ?l -> _ => let l' := eval vm_compute in l in change l with l' end; intro H; cbn [In] in H;
    repeat (destruct H as [<-|H]; [reflexivity|]); destruct H.
  all: apply each_in in H as (a & t & A & H & ->); apply each_in in H as (b & t' & B & H & ->);
    apply each_in in H as (c & d & C & D & ->); rewrite !map_app, <- !app_assoc;
    destruct (cases_read pe pq c d rest C D) as [R N];
    assert (N1 : no_kw ["WITH"; "WITHOUT"; "PASSING"; "RETURNING"] (map K b ++ map K c ++ map K d ++ TSym ")" :: rest))
      by (apply (no_kw_app json_quotes); [cbn [In json_quotes]; intros t [<-|[<-|[<-|[<-|[<-|[]]]]]]; cbn [In]; intuition discriminate|exact B|
          revert N; apply no_kw_less; cbn [In]; tauto]).
  - change (path_tail "JSON_QUERY") with (HThen (HMaybe h_returning) (HThen (HMaybe (HThen h_wrapper (HKw "WRAPPER")))
      (HThen (HMaybe (h_seq [HEither (HKw "KEEP") (HKw "OMIT"); HKw "QUOTES"; HMaybe (h_words ["ON"; "SCALAR"; "STRING"])]))
       (HThen (HMaybe (HThen h_query_behavior (h_words ["ON"; "EMPTY"]))) (HMaybe (HThen h_query_behavior (h_words ["ON"; "ERROR"]))))))).
    eapply (then_reads _ _ _ _ _ _ tt); [|eapply (then_reads _ _ _ _ _ _ tt); [apply wrapper_reads; [exact A|]|eapply (then_reads _ _ _ _ _ _ tt); [apply quotes_reads; [exact B|]|exact R]]].
    + unfold h_returning. cbn [h_seq p_shape].
      assert (Q : eat_kw "RETURNING" (map K a ++ map K b ++ map K c ++ map K d ++ TSym ")" :: rest) = None).
      { assert (Q : no_kw ["RETURNING"] (map K a ++ map K b ++ map K c ++ map K d ++ TSym ")" :: rest)); [|apply Q; now left].
        apply (no_kw_app json_wrappers); [|exact A|revert N1; apply no_kw_less; cbn [In]; tauto].
        cbn [In json_wrappers]. intros t I. repeat (destruct I as [<-|I]; [try exact Logic.I; cbn [In]; intuition discriminate|]). destruct I. }
      rewrite Q. reflexivity.
    + revert N1. apply no_kw_less. cbn [In]. tauto.
    + revert N. apply no_kw_less. cbn [In]. tauto.
  - assert (Q : no_kw ["PASSING"] (map K a ++ map K b ++ map K c ++ map K d ++ TSym ")" :: rest)); [|apply Q; now left].
    apply (no_kw_app json_wrappers); [|exact A|revert N1; apply no_kw_less; cbn [In]; tauto].
    cbn [In json_wrappers]. intros t I. repeat (destruct I as [<-|I]; [try exact Logic.I; cbn [In]; intuition discriminate|]). destruct I.
Qed.
Lemma Json_path en k ta s tail : In tail (json_tails k) -> Wh en ta ->
  Nt en (K k :: paren (ta ++ TSym "," :: TString s :: map K tail)).
Proof.
  intros T W. apply Json_none.
  - unfold json_tails in T. destruct (String.eqb_spec k "JSON_EXISTS") as [->|_]; [reflexivity|].
    destruct (String.eqb_spec k "JSON_VALUE") as [->|_]; [reflexivity|].
    destruct (String.eqb_spec k "JSON_QUERY") as [->|_]; [reflexivity|destruct T].
  - intros n rest Hn. rewrite <- app_assoc. cbn [app]. rewrite app_length in Hn.
    destruct (tails_read (pe_of en n) (pq_of en n) k rest tail T) as (R & P & b & E).
    unfold path_tail in R. rewrite E in *. apply (shapes_reads _ _ _ _ _ _ tt). eapply then_reads; [|exact R].
    apply invocation_reads; auto; lia.
Qed.
Lemma Json_default en ta s td w : In w ["EMPTY"; "ERROR"] -> Wh en ta -> Wh en td ->
  Nt en (K "JSON_VALUE" :: paren (ta ++ TSym "," :: TString s :: K "DEFAULT" :: td ++ [K "ON"; K w])).
Proof.
  intros T W D. apply Json_none; [reflexivity|]. intros n rest Hn. rewrite <- app_assoc. cbn [app]. rewrite <- app_assoc. cbn [app].
  rewrite !app_length in Hn. cbn [length] in Hn. rewrite app_length in Hn. cbn [length] in Hn.
  assert (B : forall q, p_shape (pe_of en n) (pq_of en n) h_value_behavior (K "DEFAULT" :: td ++ K "ON" :: q) = Ok (Ok tt, K "ON" :: q)).
  { intro q. unfold h_value_behavior. cbn [h_any].
    change (p_shape (pe_of en n) (pq_of en n) (HThen (HKw "DEFAULT") HExpr) (K "DEFAULT" :: td ++ K "ON" :: q) = Ok (Ok tt, K "ON" :: q)).
    eapply then_reads; [reflexivity|]. apply expr_reads; [exact D|lia|reflexivity]. }
  apply (shapes_reads _ _ _ _ _ _ tt). cbn [h_seq].
  eapply then_reads; [apply invocation_reads; [exact W|lia|reflexivity]|].
  eapply then_reads; [reflexivity|].
  cbn [In] in T. destruct T as [<-|[<-|[]]].
  - eapply (then_reads _ _ _ _ _ (TSym ")" :: rest) tt); [|reflexivity]. apply maybe_reads. eapply then_reads; [apply B|reflexivity].
  - eapply (then_reads _ _ _ _ _ _ tt).
    + apply maybe_skips. eapply then_fails; [apply B|reflexivity].
    + apply maybe_reads. eapply then_reads; [apply B|reflexivity].
Qed.

(** * Arrays and objects *)
Lemma commas_reads en h n rest tss :
  tss <> [] -> (forall ts, In ts tss -> forall r, r = rest \/ (exists r', r = TSym "," :: r') ->
    p_shape (pe_of en n) (pq_of en n) h (ts ++ r) = Ok (Ok tt, r)) -> eat_sym "," rest = None ->
  p_shape (pe_of en n) (pq_of en n) (HCommas h) (commas tss ++ rest) = Ok (Ok tt, rest).
Proof.
  intros N H E. cbn [p_shape]. rewrite (sep_ok _ rest (map (fun _ => tt) tss) tss); [reflexivity| | |exact E].
  - clear N. induction tss as [|t tss IH]; [constructor|]. cbn [map]. constructor.
    + intros r R. apply H; [now left|exact R].
    + apply IH. intros ts T. apply H. now right.
  - destruct tss; [congruence|discriminate].
Qed.
Lemma value_closed en n q : p_value en (S (S n)) 0 (TSym ")" :: q) = Err SyntaxErr.
Proof.
  change (p_value en (S (S n)) 0 (TSym ")" :: q)) with (value_body (p_value en (S n)) (p_primary en (S n)) 0 (TSym ")" :: q)).
  unfold value_body. cbn [String.eqb Ascii.eqb Bool.eqb].
  change (p_primary en (S n) (TSym ")" :: q)) with (prim_body en (p_bool en n 0) (p_value en n 0) (p_query en n) (TSym ")" :: q)).
  reflexivity.
Qed.
Lemma closed en n q : 3 <= n -> p_bool en n 0 (TSym ")" :: q) = Err SyntaxErr.
Proof.
  intro H. do 3 (destruct n as [|n]; [lia|]).
  change (p_bool en (S (S (S n))) 0 (TSym ")" :: q))
    with (bool_body (p_bool en (S (S n))) (p_value en (S (S n)) 0) (p_query en (S (S n))) 0 (TSym ")" :: q)).
  unfold bool_body. cbn [eat_kw]. rewrite value_closed. reflexivity.
Qed.
Lemma expr_closed en n pq q : 3 <= n -> p_shape (pe_of en n) pq HExpr (TSym ")" :: q) = Err SyntaxErr.
Proof. intro H. cbn [p_shape]. rewrite closed by exact H. reflexivity. Qed.
Lemma commas_closed pe pq h ts : p_shape pe pq h ts = Err SyntaxErr -> p_shape pe pq (HCommas h) ts = Err SyntaxErr.
Proof. intro H. cbn [p_shape]. unfold sep. cbn [p_sep]. rewrite H. reflexivity. Qed.
Lemma Json_empty en k : In k ["JSON_ARRAY"; "JSON_OBJECT"] -> Nt en (K k :: paren []).
Proof.
  intro I. apply Json_none; [cbn [In] in I; destruct I as [<-|[<-|[]]]; reflexivity|]. intros n rest Hn. cbn [app length] in *.
  assert (L : 3 <= n) by lia. pose proof (expr_closed en n (pq_of en n) rest L) as X.
  assert (T : p_shapes (pe_of en n) (pq_of en n) [HMaybe h_returning] (TSym ")" :: rest) = Ok (Ok NNone, rest)).
  { apply (shapes_reads _ _ _ _ _ _ tt). apply maybe_skips. reflexivity. }
  cbn [In] in I. destruct I as [<-|[<-|[]]]; unfold json_shapes; cbn [String.eqb Ascii.eqb Bool.eqb h_seq]; (rewrite shapes_next; [exact T|]);
    apply then_stops, commas_closed.
  - apply then_stops. exact X.
  - unfold h_member. cbn [h_any h_seq]. rewrite either_second by (apply then_stops; reflexivity).
    rewrite either_second; now apply then_stops.
Qed.
Lemma Json_array en tss tail : In tail json_nulls -> tss <> [] -> Forall (Wh en) tss ->
  Nt en (K "JSON_ARRAY" :: paren (commas tss ++ map K tail)).
Proof.
  intros T N F. apply Json_none; [reflexivity|]. intros n rest Hn. rewrite <- app_assoc. rewrite app_length in Hn.
  apply (shapes_reads _ _ _ _ _ _ tt). cbn [h_seq]. rewrite Forall_forall in F.
  assert (A : after_value (map K tail ++ TSym ")" :: rest) /\ eat_sym "," (map K tail ++ TSym ")" :: rest) = None).
  { cbn [In json_nulls] in T. destruct T as [<-|[<-|[<-|[]]]]; repeat split; reflexivity. }
  destruct A as [A C].
  eapply then_reads; [apply commas_reads; [exact N| |exact C]|].
  - intros ts I r R. pose proof (commas_length_in _ _ I). apply value_reads; [now apply F|lia|].
    destruct R as [->|[r' ->]]; [exact A|split; reflexivity].
  - cbn [In json_nulls] in T. destruct T as [<-|[<-|[<-|[]]]]; reflexivity.
Qed.
Inductive Mb (en : env) : list token -> Prop :=
| mb_key ta tb : Wh en ta -> Wh en tb -> Mb en (K "KEY" :: ta ++ K "VALUE" :: tb)
| mb_value ta tb : Wh en ta -> not_key ta = true -> Wh en tb -> Mb en (ta ++ K "VALUE" :: tb)
| mb_colon ta tb : Wh en ta -> not_key ta = true -> Wh en tb -> Mb en (ta ++ TSym ":" :: tb).
Lemma whole_some en ts : Wh en ts -> ts <> [].
Proof.
  intros [e R] ->. specialize (R 4 ltac:(cbn; lia) [] eq_refl). cbn [app] in R.
  change (p_bool en 4 0 []) with (bool_body (p_bool en 3) (p_value en 3 0) (p_query en 3) 0 []) in R.
  unfold bool_body in R. cbn [eat_kw] in R.
  change (p_value en 3 0 []) with (value_body (p_value en 2) (p_primary en 2) 0 []) in R. unfold value_body in R.
  change (p_primary en 2 []) with (prim_body en (p_bool en 1 0) (p_value en 1 0) (p_query en 1) []) in R.
  discriminate R.
Qed.
Lemma not_key_eats en ta r : Wh en ta -> not_key ta = true -> eat_kw "KEY" (ta ++ r) = None.
Proof.
  intros W H. pose proof (whole_some _ _ W) as N. destruct ta as [|[] ta]; [congruence|..]; try reflexivity.
  cbn [app eat_kw]. cbn [not_key] in H. now destruct (String.eqb k "KEY").
Qed.
Lemma member_reads en ts n rest : Mb en ts -> 8 * length ts + 4 <= n -> after_value rest ->
  p_shape (pe_of en n) (pq_of en n) h_member (ts ++ rest) = Ok (Ok tt, rest).
Proof.
  intros M Hn A.
  assert (V : forall s ta tb q, Wh en ta -> Wh en tb -> 8 * length ta + 4 <= n -> 8 * length tb + 4 <= n -> lev (q :: tb ++ rest) = 0 ->
    p_shape (pe_of en n) (pq_of en n) s (q :: tb ++ rest) = Ok (Ok tt, tb ++ rest) ->
    p_shape (pe_of en n) (pq_of en n) (HThen HExpr (HThen s h_json_value)) (ta ++ q :: tb ++ rest) = Ok (Ok tt, rest)).
  { intros s ta tb q Wa Wb La Lb L S. eapply then_reads; [now apply expr_reads|]. eapply then_reads; [exact S|]. now apply value_reads. }
  unfold h_member. cbn [h_any h_seq]. destruct M as [ta tb Wa Wb|ta tb Wa K Wb|ta tb Wa K Wb].
  - cbn [app length] in *. rewrite <- app_assoc. cbn [app]. rewrite app_length in Hn. cbn [length] in Hn.
    assert (E : p_shape (pe_of en n) (pq_of en n) (HThen (HKw "KEY") (HThen HExpr (HThen (HKw "VALUE") h_json_value)))
      (Tokens.K "KEY" :: ta ++ Tokens.K "VALUE" :: tb ++ rest) = Ok (Ok tt, rest)).
    { eapply then_reads; [reflexivity|]. apply V; auto; try lia. }
    change (p_shape (pe_of en n) (pq_of en n) (HEither ?a ?b) ?t) with (orelse (p_shape (pe_of en n) (pq_of en n) a t) (fun _ => p_shape (pe_of en n) (pq_of en n) b t)).
    rewrite E. reflexivity.
  - rewrite <- app_assoc. cbn [app]. rewrite app_length in Hn. cbn [length] in Hn.
    assert (E : p_shape (pe_of en n) (pq_of en n) (HThen HExpr (HThen (HKw "VALUE") h_json_value))
      (ta ++ Tokens.K "VALUE" :: tb ++ rest) = Ok (Ok tt, rest)) by (apply V; auto; lia).
    revert E. generalize (HThen HExpr (HThen (HKw "VALUE") h_json_value)) as h. intros h E. cbn [p_shape].
    rewrite (not_key_eats en ta _ Wa K). cbn [need bind orelse]. rewrite E. reflexivity.
  - rewrite <- app_assoc. cbn [app]. rewrite app_length in Hn. cbn [length] in Hn.
    assert (E : p_shape (pe_of en n) (pq_of en n) (HThen HExpr (HThen (HSym ":") h_json_value))
      (ta ++ TSym ":" :: tb ++ rest) = Ok (Ok tt, rest)) by (apply V; auto; lia).
    assert (D : p_shape (pe_of en n) (pq_of en n) (HThen HExpr (HThen (HKw "VALUE") h_json_value)) (ta ++ TSym ":" :: tb ++ rest) = Err SyntaxErr).
    { destruct Wa as [a R]. cbn [p_shape]. rewrite (R n) by (try lia; reflexivity). reflexivity. }
    revert E D. generalize (HThen HExpr (HThen (HKw "VALUE") h_json_value)) as g. generalize (HThen HExpr (HThen (HSym ":") h_json_value)) as h.
    intros h g E D. cbn [p_shape]. rewrite (not_key_eats en ta _ Wa K). cbn [need bind orelse]. rewrite D. cbn [orelse]. exact E.
Qed.
Lemma Json_object en tss tail : In tail (each_of json_nulls json_unique) -> tss <> [] -> Forall (Mb en) tss ->
  Nt en (K "JSON_OBJECT" :: paren (commas tss ++ map K tail)).
Proof.
  intros T N F. apply Json_none; [reflexivity|]. intros n rest Hn. rewrite <- app_assoc. rewrite app_length in Hn.
  apply (shapes_reads _ _ _ _ _ _ tt). cbn [h_seq]. rewrite Forall_forall in F.
  revert T. match goal with |- In _ ?l -> _ => let l' := eval vm_compute in l in change l with l' end. intro T. cbn [In] in T.
  assert (A : after_value (map K tail ++ TSym ")" :: rest) /\ eat_sym "," (map K tail ++ TSym ")" :: rest) = None).
  { repeat (destruct T as [<-|T]; [repeat split; reflexivity|]). destruct T. }
  destruct A as [A C].
  eapply then_reads; [apply commas_reads; [exact N| |exact C]|].
  - intros ts I r R. pose proof (commas_length_in _ _ I). apply member_reads; [now apply F|lia|].
    destruct R as [->|[r' ->]]; [exact A|split; reflexivity].
  - repeat (destruct T as [<-|T]; [reflexivity|]). destruct T.
Qed.

(** * Table functions *)
Inductive Tv (en : env) : list token -> Prop :=
| tv_expr ts : Wh en ts -> plain_argument ts = true -> Tv en ts
| tv_table l : l <> [] -> Tv en (K "TABLE" :: paren (dotted l)).
Inductive Ag (en : env) : list token -> Prop :=
| ag_value ts : Tv en ts -> Ag en ts
| ag_named x ts : Tv en ts -> Ag en (TId x :: TSym "=>" :: ts).
Definition after_argument (rest : list token) : Prop := (exists q, rest = TSym "," :: q) \/ (exists q, rest = TSym ")" :: q).
Lemma path_reads pe pq l rest : l <> [] -> eat_sym "." rest = None -> p_shape pe pq HPath (dotted l ++ rest) = Ok (Ok tt, rest).
Proof.
  intros N E. destruct l as [|x l]; [congruence|]. cbn [p_shape]. rewrite dotted_ok by exact E. cbn [bind].
  unfold v_names. rewrite visit_idents. reflexivity.
Qed.
Lemma paren_reads pe pq h ts rest x : p_shape pe pq h (ts ++ TSym ")" :: rest) = Ok (x, TSym ")" :: rest) ->
  p_shape pe pq (HParen h) (paren ts ++ rest) = Ok (x, rest).
Proof.
  intro H. unfold paren. cbn [p_shape app]. rewrite eat_sym_same. cbn [need bind]. rewrite <- app_assoc. cbn [app].
  rewrite H. cbn [bind]. rewrite eat_sym_same. reflexivity.
Qed.
Lemma ends_reads pe pq rest : after_argument rest -> p_shape pe pq HEnds rest = Ok (Ok tt, rest).
Proof. intros [[q ->]|[q ->]]; reflexivity. Qed.
Lemma plain_first en ts rest k : Wh en ts -> plain_argument ts = true -> In k ["TABLE"; "DESCRIPTOR"; "CAST"] -> eat_kw k (ts ++ rest) = None.
Proof.
  intros W P I. pose proof (whole_some _ _ W) as N. destruct ts as [|[] ts]; [congruence|..]; try reflexivity.
  cbn [app eat_kw]. unfold plain_argument in P. apply andb_true_iff in P as [P _]. apply negb_true_iff in P.
  destruct (String.eqb_spec k0 k) as [->|]; [|reflexivity].
  cbn [In] in I. destruct I as [<-|[<-|[<-|[]]]]; discriminate P.
Qed.
Lemma tv_reads en ts n rest : Tv en ts -> 8 * length ts + 4 <= n -> after_argument rest ->
  p_shape (pe_of en n) (pq_of en n) h_table_value (ts ++ rest) = Ok (Ok tt, rest).
Proof.
  intros T Hn A. unfold h_table_value. cbn [h_any]. destruct T as [ts W P|l N].
  - rewrite either_second.
    2:{ apply then_stops. unfold h_table_argument, h_argument_relation. apply then_stops, then_stops. cbn [p_shape].
        rewrite (plain_first _ _ _ "TABLE" W P) by (cbn; auto). reflexivity. }
    rewrite either_second.
    2:{ apply then_stops. unfold h_descriptor. rewrite either_second; (apply then_stops; cbn [p_shape]).
        - rewrite (plain_first _ _ _ "CAST" W P) by (cbn; auto). reflexivity.
        - rewrite (plain_first _ _ _ "DESCRIPTOR" W P) by (cbn; auto). reflexivity. }
    eapply then_reads; [apply expr_reads; [exact W|exact Hn|]|now apply ends_reads].
    destruct A as [[q ->]|[q ->]]; reflexivity.
  - apply either_first. eapply then_reads; [|now apply ends_reads]. unfold h_table_argument.
    eapply (then_reads _ _ _ _ _ rest tt).
    + unfold h_argument_relation. cbn [app]. eapply then_reads; [reflexivity|]. apply either_first. apply paren_reads.
      now apply path_reads.
    + destruct A as [[q ->]|[q ->]]; reflexivity.
Qed.
Lemma ag_reads en ts n rest : Ag en ts -> 8 * length ts + 4 <= n -> after_argument rest ->
  p_shape (pe_of en n) (pq_of en n) h_function_argument (ts ++ rest) = Ok (Ok tt, rest).
Proof.
  intros T Hn A. unfold h_function_argument. cbn [h_seq]. destruct T as [ts T|x ts T].
  - rewrite either_second; [now apply tv_reads|].
    assert (G : forall pe pq h, p_shape pe pq (HThen HName (HThen (HSym "=>") h)) (ts ++ rest) = Err SyntaxErr); [|apply G].
    intros pe pq h. destruct T as [ts W P|l N]; [|reflexivity].
    assert (E : eat_sym "=>" (tl (ts ++ rest)) = None).
    { pose proof (whole_some _ _ W) as N. unfold plain_argument in P. apply andb_true_iff in P as [_ P].
      destruct ts as [|t [|u ts]]; [congruence|..].
      - cbn [app tl]. destruct A as [[q ->]|[q ->]]; reflexivity.
      - cbn [app tl]. destruct u; try reflexivity. cbn [eat_sym]. apply negb_true_iff in P. now rewrite P. }
    clear - E. destruct (ts ++ rest) as [|t q]; [reflexivity|]. cbn [tl] in E.
    destruct t; cbn [p_shape p_ident]; try reflexivity; try destruct (mem k non_reserved); cbn [bind]; rewrite ?E; reflexivity.
  - cbn [length] in Hn. apply either_first. cbn [app]. eapply then_reads; [reflexivity|]. eapply then_reads; [reflexivity|].
    apply tv_reads; auto. lia.
Qed.
Lemma Tf_read en l args n rest : l <> [] -> Forall (Ag en) args -> 8 * length (dotted l ++ paren (commas args)) + 4 <= n ->
  p_shapes (pe_of en n) (pq_of en n) [h_table_call] ((dotted l ++ paren (commas args)) ++ TSym ")" :: rest) = Ok (Ok NNone, rest).
Proof.
  intros N F Hn. apply (shapes_reads _ _ _ _ _ _ tt). unfold h_table_call. rewrite <- app_assoc.
  eapply then_reads; [apply path_reads; [exact N|reflexivity]|].
  rewrite app_length, length_paren in Hn. destruct args as [|a args].
  - rewrite either_second; [reflexivity|]. unfold paren. cbn [commas map tjoin app].
    assert (X : forall q, p_shape (pe_of en n) (pq_of en n) (HThen (HCommas h_function_argument) (HMaybe h_copartition)) (TSym ")" :: q) = Err SyntaxErr).
    { intro q. apply then_stops, commas_closed. unfold h_function_argument. rewrite either_second by (apply then_stops; reflexivity).
      unfold h_table_value. cbn [h_any]. rewrite either_second by (apply then_stops; reflexivity).
      rewrite either_second by (apply then_stops; reflexivity). apply then_stops. apply expr_closed. lia. }
    revert X. generalize (HThen (HCommas h_function_argument) (HMaybe h_copartition)) as h. intros h X. cbn [p_shape].
    rewrite eat_sym_same. cbn [need bind]. rewrite X. reflexivity.
  - apply either_first. apply paren_reads. eapply then_reads; [apply commas_reads; [discriminate| |reflexivity]|apply maybe_skips; reflexivity].
    rewrite Forall_forall in F. intros ts I r R. pose proof (commas_length_in _ _ I). apply ag_reads; [now apply F|lia|].
    destruct R as [->|[r' ->]]; [right|left]; eauto.
Qed.
Lemma Tf_rel en l args : l <> [] -> Forall (Ag en) args -> rel_reads_as en NNone (K "TABLE" :: paren (dotted l ++ paren (commas args))).
Proof.
  intros N F n rest Hn E. destruct n as [|n]; [lia|]. cbn [length] in Hn. rewrite length_paren in Hn.
  change (p_relation en (S n) ((K "TABLE" :: paren (dotted l ++ paren (commas args))) ++ rest)) with
    (relation_body (p_bool en n 0) (p_query en n) (p_relation en n) (K "TABLE" :: paren (dotted l ++ paren (commas args)) ++ rest)).
  unfold relation_body, p_sampled, p_aliased, p_relation_primary.
  assert (P : paren (dotted l ++ paren (commas args)) ++ rest = TSym "(" :: (dotted l ++ paren (commas args)) ++ TSym ")" :: rest)
    by (unfold paren at 1; cbn [app]; now rewrite <- !app_assoc).
  rewrite P. cbn [K String.eqb Ascii.eqb Bool.eqb eat_sym andb need bind]. rewrite Tf_read by (auto; lia). cbn [bind].
  rewrite (en_alias _ (ce_ender _ E)). cbn [bind v_aliased_rel]. rewrite (ce_sample _ E).
  destruct (clause_ahead rest); cbn [bind]; cbn [rel_loop]; now rewrite (ce_join _ E).
Qed.
