(** Everything that is accepted has a reading by the rules of Accepts.v (for C63):
    words, lists and types. *)
From Coq Require Import String Ascii List Bool Arith NArith ZArith Lia.
From Verif Require Import PyStr StrFacts Types Inference Floats UniText Lexer TypeParser Functions Ast Sql Walk Parser Tokens NodeFacts
  ParseMore ParseMoreQ Typing PropertiesRules Grammar Accepts.
Import ListNotations.
Open Scope nat_scope.
Open Scope string_scope.
Open Scope list_scope.

(** * Parsers that take a prefix *)
Definition eats {A} (P : A -> list token -> Prop) (ts : list token) (x : pres A) : Prop :=
  forall a r, x = Ok (a, r) -> exists pre, ts = pre ++ r /\ P a pre.
Definition val {A} (Q : A -> list token -> Prop) (v : result A) (pre : list token) : Prop :=
  forall b, v = Ok b -> Q b pre.
(** A part that may be absent. *)
Definition opt_val {A} (Q : A -> list token -> Prop) (o : option (result A)) (pre : list token) : Prop :=
  match o with None => pre = [] | Some v => val Q v pre end.

Lemma eats_ok {A} (P : A -> list token -> Prop) a ts : P a [] -> eats P ts (Ok (a, ts)).
Proof. intros H b r E. injection E as <- <-. exists []. auto. Qed.
Lemma eats_err {A} (P : A -> list token -> Prop) ts e : eats P ts (Err e).
Proof. intros a r H. discriminate. Qed.
Lemma eats_bind {A B} (Q : A -> list token -> Prop) (P : B -> list token -> Prop) ts x f :
  eats Q ts x -> (forall a pre r, ts = pre ++ r -> Q a pre -> eats (fun b p => P b (pre ++ p)) r (f (a, r))) ->
  eats P ts (bind x f).
Proof.
  intros H G b s E. destruct x as [[a r]|e]; [|discriminate]. cbn [bind] in E.
  destruct (H a r eq_refl) as (pre & T & Qa). destruct (G a pre r T Qa b s E) as (p & -> & Pb).
  exists (pre ++ p). rewrite <- app_assoc. auto.
Qed.
Lemma eats_orelse {A} (P : A -> list token -> Prop) ts x f : eats P ts x -> eats P ts (f tt) -> eats P ts (orelse x f).
Proof. intros H G a r E. destruct x as [[b s]|[]]; cbn [orelse] in E; try discriminate; auto. Qed.
Lemma eats_weaken {A} (P Q : A -> list token -> Prop) ts x : eats P ts x -> (forall a p, P a p -> Q a p) -> eats Q ts x.
Proof. intros H G a r E. destruct (H a r E) as (p & -> & Pa). eauto. Qed.
Lemma eats_assoc {A B C} (P : C -> list token -> Prop) ts (x : result A) (f : A -> pres B) (g : B * list token -> pres C) :
  eats P ts (bind x (fun a => bind (f a) g)) -> eats P ts (bind (bind x f) g).
Proof. destruct x; trivial. Qed.
Lemma eat_kw_some k ts r : eat_kw k ts = Some r -> exists x, ts = TKw k x :: r.
Proof.
  destruct ts as [|t ts]; [discriminate|]. destruct t; cbn [eat_kw]; try discriminate.
  destruct (String.eqb_spec k0 k) as [->|]; [|discriminate]. intro H. injection H as <-. eauto.
Qed.
Lemma eat_sym_some k ts r : eat_sym k ts = Some r -> ts = TSym k :: r.
Proof.
  destruct ts as [|t ts]; [discriminate|]. destruct t; cbn [eat_sym]; try discriminate.
  destruct (String.eqb_spec s k) as [->|]; [|discriminate]. intro H. injection H as <-. reflexivity.
Qed.
Lemma eats_cons {A} (P : A -> list token -> Prop) t r x : eats (fun a p => P a (t :: p)) r x -> eats P (t :: r) x.
Proof. intros H a s E. destruct (H a s E) as (p & -> & Pa). exists (t :: p). auto. Qed.
Ltac eat :=
  match goal with
  | |- context [eat_kw ?k ?ts] =>
      let E := fresh "E" in let x := fresh "x" in
      destruct (eat_kw k ts) eqn:E; [apply eat_kw_some in E as [x E]; match goal with |- eats _ ts _ => subst ts; apply eats_cons | _ => try subst ts end|clear E];
      cbn [need bind]
  | |- context [eat_sym ?k ?ts] =>
      let E := fresh "E" in
      destruct (eat_sym k ts) eqn:E; [apply eat_sym_some in E; match goal with |- eats _ ts _ => subst ts; apply eats_cons | _ => try subst ts end|clear E];
      cbn [need bind]
  end.
Notation takes P p := (forall ts, eats P ts (p ts)).
Create HintDb ac.
Ltac rd1 :=
  match goal with
  | |- eats _ _ (Err _) => apply eats_err
  | |- eats _ _ (Ok _) => apply eats_ok
  | |- eats _ _ (orelse _ _) => apply eats_orelse; cbn beta
  | |- eats _ _ (bind (bind _ _) _) => apply eats_assoc
  | |- eats _ _ (bind (Ok _) _) => cbn [bind]; cbn beta iota
  | |- eats _ _ (bind (Err _) _) => cbn [bind]; apply eats_err
  | |- eats _ _ (bind (if ?b then _ else _) _) => destruct b eqn:?
  | |- eats _ _ (bind (match eat_kw _ _ with _ => _ end) _) => eat; cbn beta iota
  | |- eats _ _ (bind (match eat_sym _ _ with _ => _ end) _) => eat; cbn beta iota
  | |- eats _ _ (match (match eat_kw _ _ with _ => _ end) with _ => _ end) => eat; cbn beta iota
  | |- eats _ _ (match (match eat_sym _ _ with _ => _ end) with _ => _ end) => eat; cbn beta iota
  | |- eats _ _ (bind (need _) _) => eat
  | |- eats _ _ (match eat_kw _ _ with _ => _ end) => eat
  | |- eats _ _ (match eat_sym _ _ with _ => _ end) => eat
  | |- eats _ _ (bind _ _) =>
      eapply eats_bind; [solve [eauto with ac] | cbn beta; intros ? ? ? ? ?; cbn beta iota; try (subst; [idtac])]
  | |- eats _ _ (if ?b then _ else _) => destruct b eqn:?
  end.
Ltac rd := repeat rd1.

(** * Lists *)
Inductive many {A} (Q : A -> list token -> Prop) : list A -> list token -> Prop :=
| many_one a ts : Q a ts -> many Q [a] ts
| many_more a ts l tl : Q a ts -> many Q l tl -> many Q (a :: l) (ts ++ TSym "," :: tl).
Lemma val_err {A} (Q : A -> list token -> Prop) e p : val Q (Err e) p.
Proof. intros b H. discriminate. Qed.
Lemma val_ok {A} (Q : A -> list token -> Prop) a p : Q a p -> val Q (Ok a) p.
Proof. intros H b E. injection E as <-. exact H. Qed.
Lemma val_weaken {A} (P Q : A -> list token -> Prop) v p : val P v p -> (forall a, P a p -> Q a p) -> val Q v p.
Proof. intros H G a E. auto. Qed.
Lemma p_sep_eats {A} (Q : A -> list token -> Prop) p : takes (val Q) p -> forall k, takes (val (many Q)) (p_sep p k).
Proof.
  intros H. induction k as [|k IH]; intro ts; [apply eats_err|]. cbn [p_sep].
  rd; intros l E; unbind.
  - rewrite app_nil_r. apply many_more; auto.
  - rewrite app_nil_r. apply many_one; auto.
Qed.
Lemma sep_eats {A} (Q : A -> list token -> Prop) p : takes (val Q) p -> takes (val (many Q)) (sep p).
Proof. intros H ts. unfold sep. now apply p_sep_eats. Qed.
#[global] Hint Resolve sep_eats : ac.

(** * Words *)
Definition ident_is (i : pident) (p : list token) : Prop := val name (visit_ident i) p /\ exists t, p = [t] /\ ident_token i t.
Lemma p_ident_eats : takes ident_is p_ident.
Proof.
  intros ts i r H. destruct ts as [|t ts]; [discriminate|].
  destruct t; cbn [p_ident] in H; try discriminate.
  1: destruct (mem k non_reserved) eqn:M; [|discriminate].
  all: injection H as <- <-; eexists [_]; (split; [reflexivity|]).
  all: split; [|eexists; split; [reflexivity|now constructor]].
  all: intros n E; try discriminate; injection E as <-; now constructor.
Qed.
#[global] Hint Resolve p_ident_eats : ac.
Lemma p_name_eats : takes (val ident_is) p_name.
Proof. intro ts. unfold p_name. rd. rewrite app_nil_r. now apply val_ok. Qed.
#[global] Hint Resolve p_name_eats : ac.
Lemma many_names l p : many ident_is l p -> val name_list (v_names l) p.
Proof.
  unfold v_names. induction 1 as [i ts [N _]|i ts l tl [N _] M IH]; cbn [each]; intros ns E; unbind.
  - apply names_one. auto.
  - apply names_more; auto.
Qed.
Lemma p_idents_eats : takes (fun l p => val name_list (v_names l) p) p_idents.
Proof.
  intro ts. unfold p_idents. rd. destruct a as [l|]; [|apply eats_err]. cbn [bind]. rd.
  rewrite app_nil_r. apply many_names. now apply H0.
Qed.
#[global] Hint Resolve p_idents_eats : ac.
Lemma p_qname_tail_eats k : forall i p ts l r, ident_is i p -> p_qname_tail k ts = (l, r) ->
  exists pre, ts = pre ++ r /\ val path (v_names (i :: l)) (p ++ pre).
Proof.
  assert (B : forall i p, ident_is i p -> val path (v_names [i]) (p ++ [])).
  { intros i p [N _] ns E. unfold v_names in E. cbn [each] in E. unbind. rewrite app_nil_r. apply path_one. auto. }
  induction k as [|k IH]; intros i p ts l r I H; cbn [p_qname_tail] in H; [injection H as <- <-; exists []; auto|].
  destruct (eat_sym "." ts) as [r0|] eqn:E; [|injection H as <- <-; exists []; auto].
  destruct (p_ident r0) as [[j r1]|] eqn:E1; [|injection H as <- <-; exists []; auto].
  apply eat_sym_some in E as ->. apply p_ident_eats in E1 as (q & -> & J).
  destruct (p_qname_tail k r1) as [l2 r2] eqn:E2. injection H as <- <-.
  destruct (IH j q r1 l2 r2 J E2) as (pre & -> & V).
  exists (TSym "." :: q ++ pre). cbn [app]. rewrite <- app_assoc. split; [reflexivity|].
  intros ns F. unfold v_names in *. cbn [each] in F. apply bind_inv in F as (n & F1 & F). apply bind_inv in F as (ns' & F2 & F).
  injection F as <-. apply path_more; [now apply I|]. now apply V.
Qed.
Lemma p_qname_eats : takes (fun l p => val path (v_names l) p) p_qname.
Proof.
  intro ts. unfold p_qname. eapply eats_bind; [apply p_ident_eats|]. intros i p r E I. cbn beta iota.
  destruct (p_qname_tail (S (length r)) r) as [l r1] eqn:T. intros a r2 H. injection H as <- <-.
  destruct (p_qname_tail_eats _ _ _ _ _ _ I T) as (pre & -> & V). eauto.
Qed.
#[global] Hint Resolve p_qname_eats : ac.
Lemma path_single n p : path [n] p -> name n p.
Proof. intro H. inversion H; subst; [assumption|]. match goal with H : path [] _ |- _ => inversion H end. Qed.
Lemma p_string_some ts s r : p_string ts = Some (s, r) -> exists p, ts = p ++ r /\ val text s p.
Proof.
  destruct ts as [|t ts]; [discriminate|]. destruct t; cbn [p_string]; try discriminate; intro H.
  - injection H as <- <-. eexists [_]. split; [reflexivity|]. apply val_ok. constructor.
  - assert (G : Some (v_unicode "\" txt, ts) = Some (s, r) -> exists p, (TUniString txt :: ts = p ++ r) /\ val text s p).
    { intro G. injection G as <- <-. exists [TUniString txt]. split; [reflexivity|]. intros v V. now apply text_unicode. }
    destruct ts as [|t1 ts]; [now apply G|]. destruct t1; try now apply G.
    destruct ts as [|t2 ts]; [now apply G|]. destruct t2; try now apply G.
    destruct (String.eqb_spec k "UESCAPE") as [->|_]; [|now apply G].
    injection H as <- <-. exists [TUniString txt; TKw "UESCAPE" txt0; TString txt1]. split; [reflexivity|].
    intros v V. now apply text_escaped.
Qed.

(** * Numbers *)
Lemma decimal_text_of s : decimal_text s (dec_of_text s).
Proof.
  assert (G : forall s, match split_dot s with
                        | (i, Some f) => s = (i ++ String "."%char f)%string /\ has_char "."%char i = false
                        | (i, None) => s = i /\ has_char "."%char i = false
                        end).
  { clear s. induction s as [|c s IH]; [now split|]. cbn [split_dot].
    destruct (Ascii.eqb_spec c "."%char) as [->|N]; [now split|].
    destruct (split_dot s) as [i [f|]]; destruct IH as [-> IH]; (split; [reflexivity|]); unfold has_char in *;
      cbn [str_exists]; rewrite IH; destruct (Ascii.eqb_spec "."%char c); first [reflexivity|congruence]. }
  specialize (G s). unfold dec_of_text. destruct (split_dot s) as [i [f|]]; destruct G as [-> G].
  - change (N_of_str (i ++ f)) with (N_of_str (i ++ f)%string).
    replace (N_of_str (i ++ f)%string) with (digits 0 (i ++ f)%string); [now apply dec_dot|].
    pose proof (number_of (i ++ f)%string) as E. unfold number in E. lia.
  - pose proof (number_of i) as E. unfold number in E. replace (N_of_str i) with (digits 0 i) by lia. now apply dec_plain.
Qed.

(** * Types *)
Lemma in_mem x l : mem x l = true -> In x l.
Proof. apply mem_in. Qed.
Lemma p_interval_field_eats : takes (fun f p => exists u, p = [u] /\ field_word u f) p_interval_field.
Proof.
  intros ts f r H. destruct ts as [|t ts]; [discriminate|]. destruct t; cbn [p_interval_field] in H; try discriminate.
  destruct (mem k interval_fields) eqn:M; [|discriminate]. injection H as <- <-.
  eexists [_]. split; [reflexivity|]. eexists. split; [reflexivity|]. exists k. auto.
Qed.
#[global] Hint Resolve p_interval_field_eats : ac.
Lemma p_zone_eats : takes zone p_zone.
Proof.
  intro ts. unfold p_zone. destruct (eat_kw "WITHOUT" ts) as [r|] eqn:W; [|destruct (eat_kw "WITH" ts) as [r|] eqn:V; [|apply eats_ok; constructor]].
  - apply eats_orelse; [|apply eats_ok; constructor]. apply eat_kw_some in W as [x ->]. apply eats_cons. rd. constructor.
  - apply eats_orelse; [|apply eats_ok; constructor]. apply eat_kw_some in V as [x ->]. apply eats_cons. rd. constructor.
Qed.
#[global] Hint Resolve p_zone_eats : ac.
Lemma syntax_eq f ts us : syntax f us -> ts = us -> syntax f ts.
Proof. now intros H ->. Qed.
Ltac toks := unfold paren; repeat first [rewrite <- app_assoc | rewrite app_nil_r]; cbn [app];
  repeat first [rewrite <- app_assoc | rewrite app_nil_r]; cbn [app];
  repeat first [rewrite <- app_assoc | rewrite app_nil_r]; cbn [app]; reflexivity.
Ltac syn R := eapply syntax_eq; [eapply R; eauto | toks].
Lemma p_type_suffix_eats n : forall t ts p, syntax (TType t) p -> eats (fun u q => syntax (TType u) (p ++ q)) ts (p_type_suffix n t ts).
Proof.
  induction n as [|n IH]; intros t ts p S; [apply eats_err|]. cbn [p_type_suffix]. eat.
  - eat.
    + destruct l0 as [|[]]; try apply eats_err. apply eats_cons. rd.
      eapply eats_weaken; [apply IH; eapply s_array_size; exact S|]. cbn beta. intros u q Hq. syn Hq.
    + eapply eats_weaken; [apply IH; eapply s_array; exact S|]. cbn beta. intros u q Hq. syn Hq.
  - apply eats_ok. now rewrite app_nil_r.
Qed.
Definition types_at n : Prop :=
  (takes (fun t p => syntax (TType t) p) (p_type n)) /\
  (takes (fun t p => syntax (TType t) p) (p_type_prim n)) /\
  (takes (fun t p => syntax (TType t) p) (p_generic n)) /\
  (takes (fun t p => syntax (TParam t) p) (p_typeparam n)) /\
  (takes (fun t p => syntax (TParams t) p) (p_typeparams n)) /\
  (takes (fun t p => syntax (TField t) p) (p_rowfield n)) /\
  (takes (fun t p => syntax (TFields t) p) (p_rowfields n)).
Lemma types_eat n : types_at n.
Proof.
  induction n as [|n (T & P & G & A & As & F & Fs)]; [unfold types_at; repeat apply conj; intro ts; apply eats_err|].
  unfold types_at. repeat apply conj; intro ts.
  - change (p_type (S n) ts) with (let* (t, r) := p_type_prim n ts in p_type_suffix n t r).
    eapply eats_bind; [apply P|]. intros t p r E H. cbn beta iota. now apply p_type_suffix_eats.
  - assert (D : eats (fun t p => syntax (TType t) p) ts (p_generic n ts)) by apply G.
    cbn [p_type_prim]. destruct ts as [|t ts]; [exact D|]. destruct t; try exact D.
    destruct (String.eqb_spec k "ROW") as [->|_].
    { eat; [|exact D]. apply eats_orelse; [|exact D]. do 2 apply eats_cons. rd. syn s_row. }
    destruct (String.eqb_spec k "INTERVAL") as [->|_].
    { destruct (p_interval_field ts) as [[f r1]|] eqn:E; [|exact D].
      apply p_interval_field_eats in E as (q & -> & u & -> & U). do 2 apply eats_cons. cbn [app].
      rd; [match goal with H : exists u, _ |- _ => destruct H as (v & -> & V) end|]; syn s_interval; [eapply upto_some; [eexists; reflexivity|exact V]|constructor]. }
    destruct (String.eqb k "TIMESTAMP" || String.eqb k "TIME")%bool eqn:B.
    { assert (K : In k ["TIMESTAMP"; "TIME"]).
      { apply orb_true_iff in B as [B|B]; apply String.eqb_eq in B as ->; cbn [In]; auto. }
      apply eats_cons. rd; [syn s_datetime_param|syn s_datetime]. }
    destruct (String.eqb_spec k "DOUBLE") as [->|_].
    { eat; [|exact D]. do 2 apply eats_cons. rd. syn s_double. }
    destruct (String.eqb_spec k "ARRAY") as [->|_].
    { eat; [|exact D]. do 2 apply eats_cons. rd. syn s_old_array. }
    destruct (String.eqb_spec k "MAP") as [->|_]; [|exact D].
    { eat; [|exact D]. do 2 apply eats_cons. rd. syn s_old_map. }
  - cbn [p_generic]. rd; match goal with H : ident_is _ _ |- _ => destruct H as (_ & t & -> & I) end; [syn s_generic_params|syn s_generic].
  - cbn [p_typeparam].
    assert (D : eats (fun t p => syntax (TParam t) p) ts (let* (t, r) := p_type n ts in Ok (PPType t, r))).
    { rd. syn s_type. }
    destruct ts as [|t ts]; [exact D|]. destruct t; try exact D. apply eats_cons. rd. constructor.
  - cbn [p_typeparams]. rd; [syn s_params|syn s_params_one].
  - cbn [p_rowfield]. apply eats_orelse; [|rd; match goal with H : ident_is _ _ |- _ => destruct H as (_ & t & -> & I) end; syn s_field_named].
    eapply eats_bind; [apply T|]. intros t p r E H. cbn beta iota; cbn beta in H.
    destruct (eat_sym "," r), (eat_sym ")" r); try apply eats_err; apply eats_ok; syn s_field.
  - cbn [p_rowfields]. rd; [syn s_fields|syn s_fields_one].
Qed.
Lemma p_type_eats n : takes (fun t p => syntax (TType t) p) (p_type n).
Proof. apply types_eat. Qed.
#[global] Hint Resolve p_type_eats : ac.
