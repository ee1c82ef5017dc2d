(** Facts about the expression parser, part 5: lambdas, arrays, casts, CASE,
    subscripts and function calls. *)
From Coq Require Import String Ascii List ZArith NArith Bool Lia Arith.
From Verif Require Import PyStr StrFacts Types Inference Lexer LexFacts TypeParser TypeFacts TypeRoundTrip
  Functions FunctionFacts Ast Sql Parser Tokens ReadsFacts ParseBase ParseParts ParseExpr ParsePrim.
Import ListNotations.
Open Scope nat_scope.
Open Scope string_scope.
Open Scope list_scope.

(** * Lambdas *)
Lemma Ex_lambda1 en n c b tb b' :
  Ex en c b tb -> subst [n] b = Ok b' -> typed (NLambda [n] b') ->
  Ex en 0 (NLambda [n] b') (TId n :: TSym "->" :: tb).
Proof.
  intros E S T. apply mk_lambda; [apply start_placed; now apply shape_tok | exact T |].
  intros m rest Hn L. cbn [length] in Hn. cbn [app prim_head].
  unfold p_name_first. cbn [p_ident bind]. change (measure_ahead (TSym "->" :: tb ++ rest)) with false.
  cbn iota. unfold p_ident_first. cbn [p_string]. rewrite eat_sym_same.
  rewrite (ex_rd en c b tb m E) by (auto; lia). cbn [bind orelse].
  unfold v_lambda, from_generic_expr. cbn [each visit_ident bind]. rewrite S. cbn [bind]. now rewrite (typed_mk _ T).
Qed.

Lemma each_ok {A B} (f : A -> result B) (g : A -> B) l :
  (forall x, In x l -> f x = Ok (g x)) -> each f l = Ok (map g l).
Proof.
  induction l as [|x l IH]; intro H; [reflexivity|]. cbn [each map].
  rewrite (H x (or_introl eq_refl)), IH by (intros; apply H; now right). reflexivity.
Qed.
Lemma visit_idents l : each visit_ident (map IdUnquoted l) = Ok l.
Proof. induction l as [|x l IH]; [reflexivity|]. cbn [map each visit_ident bind]. now rewrite IH. Qed.

Definition words (l : list string) : list token := commas (map (fun n => [TId n]) l).
Lemma idents_ok l rest : l <> [] -> eat_sym "," rest = None ->
  p_idents (words l ++ rest) = Ok (map IdUnquoted l, rest).
Proof.
  intros N E. unfold p_idents, words. rewrite (sep_ok p_name rest (map IdUnquoted l)); auto.
  - clear N. induction l; constructor; auto. intros r _. reflexivity.
  - destruct l; [congruence | discriminate].
Qed.
Lemma words_first n l : words (n :: l) = TId n :: tl (words (n :: l)).
Proof. destruct l; reflexivity. Qed.
Lemma Ex_lambda en vars c b tb b' :
  vars <> [] -> Ex en c b tb -> subst vars b = Ok b' -> typed (NLambda vars b') ->
  Ex en 0 (NLambda vars b') (paren (words vars) ++ TSym "->" :: tb).
Proof.
  intros N E S T. destruct vars as [|v vs]; [congruence|]. apply mk_lambda; [| exact T |].
  - apply start_placed. unfold paren. rewrite words_first. cbn [app]. split; [constructor|]; reflexivity.
  - intros m rest Hn L. unfold paren in *. rewrite <- app_assoc. cbn [app] in *.
    rewrite <- app_assoc in *. cbn [app] in *.
    cbn [length] in Hn. rewrite app_length in Hn. cbn [length] in Hn.
    cbn [prim_head String.eqb Ascii.eqb Bool.eqb]. unfold p_paren.
    assert (lambda_ahead (words (v :: vs) ++ TSym ")" :: TSym "->" :: tb ++ rest)
            = Some (map IdUnquoted (v :: vs), tb ++ rest)) as ->.
    { pose proof (idents_ok (v :: vs) (TSym ")" :: TSym "->" :: tb ++ rest) ltac:(discriminate) eq_refl) as P.
      rewrite words_first in *. cbn [app] in *. unfold lambda_ahead. rewrite P. reflexivity. }
    rewrite (ex_rd en c b tb m E) by (auto; lia). cbn [bind].
    unfold v_lambda, from_generic_expr. rewrite visit_idents. cbn [bind]. rewrite S. cbn [bind]. now rewrite (typed_mk _ T).
Qed.

(** * Arrays, casts *)
Lemma Ex_array en l tss :
  Exs en l tss -> l <> [] -> typed (NArray l) ->
  Ex en 9 (NArray l) (K "ARRAY" :: TSym "[" :: commas tss ++ [TSym "]"]).
Proof.
  intros H N T. apply mk_head; [apply shape_kw; (reflexivity || discriminate) | exact T |].
  intros n rest Hn L. cbn [length] in Hn. rewrite app_length in Hn. cbn [length] in Hn.
  cbn [app]. rewrite <- app_assoc. cbn [app].
  pose proof (Exs_shapes _ _ _ H) as F. pose proof (Exs_nonempty _ _ _ H N) as N'.
  assert (S : sep (p_bool en n 0) (commas tss ++ TSym "]" :: rest) = Ok (Ok l, TSym "]" :: rest)).
  { apply exprs_ok; auto. apply Rx_Rd. apply ex_rxs; auto. lia. }
  assert (Q : eat_sym "]" (commas tss ++ TSym "]" :: rest) = None).
  { destruct F as [|ts tss' Sh F]; [congruence|].
    destruct (commas_first ts tss' (TSym "]" :: rest)) as (q & -> & _). now apply not_sym. }
  change (orelse (match eat_sym "]" (commas tss ++ TSym "]" :: rest) with
    | Some r2 => Ok (mk (NArray []), r2)
    | None =>
        let* (l, r2) := sep (p_bool en n 0) (commas tss ++ TSym "]" :: rest) in
        let* r3 := need (eat_sym "]" r2) in
        Ok ((let* l := l in mk (NArray l)), r3)
    end) (fun _ => p_name_first en (p_bool en n 0) (p_value en n 0) (K "ARRAY" :: TSym "[" :: commas tss ++ TSym "]" :: rest))
    = Ok (Ok (NArray l), rest)).
  rewrite Q, S. cbn [bind]. rewrite eat_sym_same. cbn [need bind orelse]. now rewrite (typed_mk _ T).
Qed.

Lemma canon_raw_of t : canon (raw_of t) = Some t.
Proof.
  induction t as [s|p s|m|m|p z|p z|k|t IH|k v IHk IHv|l IH|t IH] using dtype_ind'.
  - destruct s; reflexivity.
  - reflexivity.
  - destruct m; reflexivity.
  - reflexivity.
  - destruct p, z; reflexivity.
  - destruct p, z; reflexivity.
  - destruct k; reflexivity.
  - cbn. rewrite IH. reflexivity.
  - cbn. rewrite IHk, IHv. reflexivity.
  - cbn [raw_of canon].
    match goal with |- match ?x with _ => _ end = _ => change x with (@None simple) end. cbn iota.
    match goal with |- context [option_map TRow ?x] => assert (x = Some l) as ->; [|reflexivity] end.
    induction IH as [|t l Ht Hl IHl]; [reflexivity|]. cbn [map]. rewrite Ht, IHl. reflexivity.
  - cbn. rewrite IH. reflexivity.
Qed.
Lemma p_cast_ok en n (try_ : bool) c e ts t rest :
  Ex en c e ts -> wf_type t = true -> typed (NCast try_ e t) -> 8 * length ts + 4 <= n ->
  p_cast (p_bool en n 0) try_ (paren (ts ++ K "AS" :: type_toks false t) ++ rest)
  = Ok (Ok (NCast try_ e t), rest).
Proof.
  intros E W T Hn. unfold p_cast, paren. cbn [app]. rewrite eat_sym_same. cbn [need bind].
  rewrite <- !app_assoc. cbn [app]. rewrite (ex_rd en c e ts n E) by (auto; reflexivity).
  cbn [bind]. rewrite eat_kw_same. cbn [need bind].
  rewrite (p_type_ok false t W); [| unfold type_fuel; rewrite app_length; lia | reflexivity].
  cbn [bind]. rewrite eat_sym_same. cbn [need bind]. unfold v_cast. cbn [bind].
  rewrite (visit_type_ok false t W) by discriminate. cbn [bind]. rewrite canon_raw_of.
  now rewrite (typed_mk _ T).
Qed.
Lemma Ex_cast en (try_ : bool) c e ts t :
  Ex en c e ts -> wf_type t = true -> typed (NCast try_ e t) ->
  Ex en 9 (NCast try_ e t)
     (K (if try_ then "TRY_CAST" else "CAST") :: paren (ts ++ K "AS" :: type_toks false t)).
Proof.
  intros E W T. apply mk_head; [| exact T |].
  - destruct try_; apply shape_kw; (reflexivity || discriminate).
  - intros n rest Hn L. unfold paren in Hn. cbn [length] in Hn. rewrite !app_length in Hn. cbn [length] in Hn.
    pose proof (p_cast_ok en n try_ c e ts t rest E W T ltac:(lia)) as P.
    cbn [app] in *. set (r := paren _ ++ rest) in *.
    destruct try_.
    + change (orelse (p_cast (p_bool en n 0) true r)
        (fun _ => p_name_first en (p_bool en n 0) (p_value en n 0) (K "TRY_CAST" :: r)) = Ok (Ok (NCast true e t), rest)).
      rewrite P. reflexivity.
    + exact P.
Qed.

(** * CASE *)
Definition when_text (y : list token * list token) : list token :=
  K "WHEN" :: fst y ++ K "THEN" :: snd y.
Definition whens_text (l : list (list token * list token)) : list token := concat (map when_text l).
Definition Exo (en : env) (e : node) (ts : list token) : Prop := exists c, Ex en c e ts.
Definition when_rel (en : env) (x : node * node) (y : list token * list token) : Prop :=
  Exo en (fst x) (fst y) /\ Exo en (snd x) (snd y).
Lemma whens_length l : length l <= length (whens_text l).
Proof.
  induction l as [|y l IH]; [cbn; lia|]. unfold whens_text in *. cbn [map concat]. rewrite app_length.
  unfold when_text at 1. cbn [length]. lia.
Qed.
Lemma p_whens_ok en n rest l tl : forall k,
  Forall2 (when_rel en) l tl -> l <> [] -> 8 * length (whens_text tl) + 4 <= n -> length tl <= k ->
  lev rest = 0 -> eat_kw "WHEN" rest = None ->
  p_whens (p_bool en n 0) k (whens_text tl ++ rest) = Ok (Ok l, rest).
Proof.
  intros k H. revert k. induction H as [|[c x] [tc tx] l tl [[c1 E1] [c2 E2]] Hl IH]; intros k N Hn Hk L W; [congruence|].
  cbn [fst snd] in *. destruct k as [|k]; [cbn in Hk; lia|].
  assert (Hw : whens_text ((tc, tx) :: tl) = K "WHEN" :: tc ++ K "THEN" :: tx ++ whens_text tl).
  { unfold whens_text. cbn [map concat]. unfold when_text at 1. cbn [fst snd app].
    rewrite <- app_assoc. reflexivity. }
  rewrite Hw in Hn |- *. clear Hw. cbn [length] in Hn, Hk. rewrite app_length in Hn. cbn [length] in Hn. rewrite app_length in Hn.
  cbn [app p_whens]. rewrite eat_kw_same. cbn [need bind]. rewrite <- app_assoc.
  rewrite (ex_rd en c1 c tc n E1) by (try reflexivity; lia). cbn [bind app]. rewrite eat_kw_same.
  cbn [need bind]. rewrite <- app_assoc.
  assert (V : v_when (Ok c) (Ok x) = Ok (c, x)).
  { unfold v_when. cbn [bind]. destruct (ex_typed _ _ _ _ E1) as [t1 ->]. cbn [bind].
    destruct (ex_typed _ _ _ _ E2) as [t2 ->]. reflexivity. }
  destruct Hl as [|x2 y2 l tl H2 Hl].
  - cbn [whens_text map concat app]. rewrite (ex_rd en c2 x tx n E2) by (auto; lia). cbn [bind].
    rewrite W, V. reflexivity.
  - rewrite (ex_rd en c2 x tx n E2); [|lia|reflexivity]. cbn [bind].
    assert (exists q, eat_kw "WHEN" (whens_text (y2 :: tl) ++ rest) = Some q) as [q ->].
    { unfold whens_text. cbn [map concat]. unfold when_text at 1. cbn [app]. rewrite eat_kw_same. eauto. }
    rewrite IH; [|discriminate|lia|cbn in *; lia|exact L|exact W]. cbn [bind]. rewrite V. reflexivity.
Qed.
(** The operand may be read as nothing. *)
Definition operand (en : env) (e : node) (ts : list token) : Prop :=
  reads_as en e ts /\ forall k, second (K "CASE" :: ts ++ k) = true /\ eat_kw "WHEN" (ts ++ k) = None.
Lemma Case_text en v0 v tv l tl el tel :
  opt_rel (operand en) v0 tv -> match v0 with Some x => opt_node x | None => None end = v -> Forall2 (when_rel en) l tl -> l <> [] -> opt_rel (Exo en) el tel ->
  typed (NCase l el v) ->
  Ex en 9 (NCase l el v)
     (K "CASE" :: match tv with None => [] | Some x => x end ++ whens_text tl
      ++ match tel with None => [] | Some x => K "ELSE" :: x end ++ [K "END"]).
Proof.
  intros Hv Hd Hl N He T. apply mk_head; [| exact T |].
  - apply shape_kw; try reflexivity; try discriminate. destruct v0 as [v0|], tv as [tv|]; try contradiction.
    + apply Hv.
    + destruct Hl as [|x y l tl Hx Hl]; [congruence|]. reflexivity.
  - intros n rest Hn L. cbn [length] in Hn. rewrite !app_length in Hn. cbn [length] in Hn.
    cbn [app]. rewrite <- !app_assoc. cbn [app].
    match goal with |- prim_head _ _ _ _ (_ :: ?r) = _ =>
      change (p_case (p_bool en n 0) r = Ok (Ok (NCase l el v), rest)) end.
    set (tail := match tel with None => [] | Some x => K "ELSE" :: x end ++ K "END" :: rest).
    assert (Ht : lev tail = 0 /\ eat_kw "WHEN" tail = None).
    { unfold tail. destruct tel; split; reflexivity. }
    unfold p_case.
    assert (Hop : match eat_kw "WHEN" (match tv with None => [] | Some x => x end ++ whens_text tl ++ tail) with
      | Some _ => Ok (None, match tv with None => [] | Some x => x end ++ whens_text tl ++ tail)
      | None => let* (e, r) := p_bool en n 0 (match tv with None => [] | Some x => x end ++ whens_text tl ++ tail) in Ok (Some e, r)
      end = Ok (match v0 with None => None | Some e => Some (Ok e) end, whens_text tl ++ tail)).
    { destruct v0 as [v0|], tv as [tv|]; try contradiction.
      - destruct Hv as [Hv Hk]. destruct (Hk (whens_text tl ++ tail)) as [_ ->].
        rewrite (Hv n); [reflexivity | lia |].
        destruct Hl as [|x y l tl Hx Hl]; [congruence|]. reflexivity.
      - cbn [app]. destruct Hl as [|x y l tl Hx Hl]; [congruence|]. reflexivity. }
    rewrite Hop. cbn [bind]. clear Hop.
    rewrite (p_whens_ok en n tail l tl); [| exact Hl | exact N | lia | | apply Ht | apply Ht].
    2:{ pose proof (whens_length tl). rewrite app_length. lia. }
    cbn [bind]. unfold tail. clear tail Ht.
    assert (Hel : match eat_kw "ELSE" (match tel with None => [] | Some x => K "ELSE" :: x end ++ K "END" :: rest) with
      | Some r2 => let* (e, r3) := p_bool en n 0 r2 in Ok (Some e, r3)
      | None => Ok (None, match tel with None => [] | Some x => K "ELSE" :: x end ++ K "END" :: rest)
      end = Ok (match el with None => None | Some e => Some (Ok e) end, K "END" :: rest)).
    { destruct el as [el|], tel as [tel|]; try contradiction; [|reflexivity].
      destruct He as [c E]. cbn [app]. rewrite eat_kw_same. cbn [length] in Hn.
      rewrite (ex_rd en c el tel n E); [reflexivity | lia | reflexivity]. }
    rewrite Hel. cbn [bind]. rewrite eat_kw_same. cbn [need bind]. unfold v_case. cbn [bind].
    subst v. destruct v0 as [v0|], el as [el|]; cbn [seq_opt bind]; now rewrite (typed_mk _ T).
Qed.
Lemma Ex_case en v tv l tl el tel :
  opt_rel (Exo en) v tv -> Forall2 (when_rel en) l tl -> l <> [] -> opt_rel (Exo en) el tel ->
  typed (NCase l el v) ->
  Ex en 9 (NCase l el v)
     (K "CASE" :: match tv with None => [] | Some x => x end ++ whens_text tl
      ++ match tel with None => [] | Some x => K "ELSE" :: x end ++ [K "END"]).
Proof.
  intros Hv. apply (Case_text en v).
  - destruct v as [v|], tv as [tv|]; try contradiction; [|exact I]. destruct Hv as [c E]. split.
    + intros n Hn. now apply (ex_rd en c).
    + intro k. split; [apply second_starter, E|]. apply not_kw; [|reflexivity].
      apply (shape_weak c); [apply E | lia | lia].
  - destruct v as [v|], tv as [tv|]; try contradiction; [|reflexivity]. destruct Hv as [c E].
    pose proof (typed_not_none _ (ex_typed _ _ _ _ E)). destruct v; try reflexivity; congruence.
Qed.

(** * Type constructors *)
Definition ctor_words := ["DATE"; "DOUBLE"; "JSON"; "TIME"; "TIMESTAMP"; "UNKNOWN"].
Definition ctor_tok (t : token) (n : string) : Prop :=
  t = TId n \/ exists k, t = TKw k n /\ mem k ctor_words = true.
Lemma Ex_typector en t n s v :
  ctor_tok t n -> upper n = n -> strip squote s = v -> typed (NTypeCtor v n) ->
  Ex en 9 (NTypeCtor v n) [t; TString s].
Proof.
  intros Ht U Hs T. apply mk_head; [| exact T |].
  - destruct Ht as [->|(k & -> & Hk)]; [now apply shape_tok|].
    unfold mem, ctor_words in Hk. cbn [existsb] in Hk. rewrite !orb_true_iff, !String.eqb_eq in Hk.
    destruct Hk as [->|[->|[->|[->|[->|[->|Hk]]]]]]; try discriminate; (split; [constructor|]; reflexivity).
  - intros m rest _ _. cbn [app].
    assert (G : forall t, t = TId n \/ (exists k, t = TKw k n /\ mem k non_reserved = true) ->
              p_name_first en (p_bool en m 0) (p_value en m 0) (t :: TString s :: rest) = Ok (Ok (NTypeCtor v n), rest)).
    { intros t' Ht'. unfold p_name_first.
      assert (p_ident (t' :: TString s :: rest) = Ok (IdUnquoted n, TString s :: rest)) as ->.
      { destruct Ht' as [->|(k & -> & Hk)]; [reflexivity|]. cbn [p_ident]. now rewrite Hk. }
      cbn [bind]. change (measure_ahead (TString s :: rest)) with false. cbn iota.
      unfold p_ident_first. cbn [p_string]. unfold v_type_ctor. cbn [bind visit_ident]. rewrite U, Hs.
      rewrite (typed_mk _ T). reflexivity. }
    destruct Ht as [->|(k & -> & Hk)]; [apply G; now left|].
    specialize (G (TKw k n)).
    unfold mem, ctor_words in Hk. cbn [existsb] in Hk. rewrite !orb_true_iff, !String.eqb_eq in Hk.
    destruct Hk as [->|[->|[->|[->|[->|[->|Hk]]]]]]; try discriminate;
      (apply G; right; eexists; split; [reflexivity | reflexivity]).
Qed.

(** * Subscripts *)
Lemma Ex_subscript en d v tv c i ti :
  9 <= d -> Ex en d v tv -> Ex en c i ti -> 5 <= c -> typed (NSubscript v i) ->
  Ex en 9 (NSubscript v i) (tv ++ TSym "[" :: ti ++ [TSym "]"]).
Proof.
  intros Hd Ev Ei Hc T. apply (mk_prim en 9); [lia | | exact T |].
  - apply (placed_app en d); auto; apply Ev.
  - intros n rest Hn L. rewrite app_length in Hn. cbn [length] in Hn. rewrite app_length in Hn. cbn [length] in Hn.
    rewrite <- app_assoc. cbn [app]. rewrite <- app_assoc. cbn [app].
    destruct (ex_prim _ _ _ _ Ev Hd n (TSym "[" :: ti ++ TSym "]" :: rest)) as (k & Hk & ->).
    + lia.
    + vm_compute; lia.
    + destruct k as [|k]; [lia|]. exists k. split.
      * cbn [length] in Hk. rewrite app_length in Hk. cbn [length] in Hk. lia.
      * cbn [post_loop String.eqb Ascii.eqb Bool.eqb]. rewrite (ex_rdv en c i ti n Ei Hc) by (try (cbn; lia); lia).
        cbn [bind]. rewrite eat_sym_same. cbn [need bind]. now rewrite (typed_mk _ T).
Qed.

(** * Calls *)

(** Windows and options of a call in terms of readings. *)
Record window_ex (en : env) (x : window node) (y : window (list token)) : Prop := {
  we_parent : w_parent x = w_parent y;
  we_plain : match w_parent x with None => True | Some n => plain n = true end;
  we_orderby : Forall2 (order_rel (Exo en)) (w_orderby x) (w_orderby y);
  we_partitions : Forall2 (Exo en) (w_partitions x) (w_partitions y);
  we_frame : w_frame x = w_frame y;
  we_start : bound_rel (Exo en) (w_start x) (w_start y);
  we_end : bound_rel (Exo en) (w_end x) (w_end y) }.
Record fopts_ex (en : env) (x : fopts node) (y : fopts (list token)) : Prop := {
  fe_orderby : Forall2 (order_rel (Exo en)) (fo_orderby x) (fo_orderby y);
  fe_filter : opt_rel (Exo en) (fo_filter x) (fo_filter y);
  fe_window : opt_rel (window_ex en) (fo_window x) (fo_window y);
  fe_ignore : fo_ignore x = fo_ignore y;
  fe_over : fo_ignore x = true -> fo_window x <> None }.

Lemma Exo_Rd en e ts n : Exo en e ts -> 8 * length ts + 4 <= n -> Rd (p_bool en n 0) e ts.
Proof. intros [c E] H. eapply ex_rd; eauto. Qed.
Lemma Exo_Rx en e ts n : Exo en e ts -> 8 * length ts + 4 <= n -> Rx (p_bool en n 0) e ts.
Proof. intros [c E] H. eapply ex_rx; eauto. Qed.
Lemma Exo_Rt en e ts n : Exo en e ts -> 8 * length ts + 4 <= n -> Rt (p_bool en n 0) e ts.
Proof. intros [c E] H. eapply ex_rt; eauto. Qed.
Lemma Forall2_in {A B} (P Q : A -> B -> Prop) l tl :
  (forall x y, In y tl -> P x y -> Q x y) -> Forall2 P l tl -> Forall2 Q l tl.
Proof.
  intros H F. induction F as [|x y l tl Hx F IH]; constructor.
  - apply H; auto. now left.
  - apply IH. intros; apply H; auto. now right.
Qed.
Lemma orders_length_in tl y : In y tl -> length (o_value y) <= length (orders_text tl).
Proof.
  intro I. destruct tl as [|z tl]; [contradiction|]. unfold orders_text. cbn [orders_toks length].
  pose proof (commas_length_in (map order_text (z :: tl)) (order_text y) (in_map _ _ _ I)) as H.
  destruct y as [v d n]. unfold order_text at 1 in H. cbn [order_toks] in H. rewrite app_length in H.
  cbn [o_value]. change (order_toks (fun t : list token => t)) with order_text. lia.
Qed.
Lemma orders_Rd en l tl n :
  Forall2 (order_rel (Exo en)) l tl -> 8 * length (orders_text tl) + 4 <= n ->
  Forall2 (order_rel (Rd (p_bool en n 0))) l tl.
Proof.
  intros H Hn. eapply Forall2_in; [|exact H]. intros x y I (R & D & N). split; [|auto].
  apply (Exo_Rd en); auto. pose proof (orders_length_in tl y I). lia.
Qed.
Lemma bound_Rt en x y n :
  bound_rel (Exo en) x y -> 8 * length (bound_text y) + 4 <= n -> bound_rel (Rt (p_bool en n 0)) x y.
Proof.
  destruct x as [d v|d|], y as [d' t|d'|]; cbn [bound_rel]; auto. intros [<- E] Hn.
  unfold bound_text in Hn. cbn [bound_toks] in Hn. rewrite app_length in Hn. split; [reflexivity|].
  apply (Exo_Rt en); auto. lia.
Qed.
Lemma window_Rd en x y n :
  window_ex en x y -> 8 * length (window_text y) + 4 <= n -> window_rel (p_bool en n 0) x y.
Proof.
  intros [H1 H2 H3 H4 H5 H6 H7] Hn.
  destruct y as [p ob ps f s e]. unfold window_text in Hn. cbn [window_toks w_orderby w_partitions w_start w_end] in *.
  fold (bound_text s) in Hn. fold (bound_text e) in Hn. fold (orders_text ob) in Hn.
  rewrite !app_length in Hn. cbn [length] in Hn. rewrite app_length in Hn. cbn [length] in Hn.
  constructor; cbn [w_orderby w_partitions w_start w_end]; auto.
  - apply orders_Rd; auto. lia.
  - eapply Forall2_in; [|exact H4]. intros a ts I E. apply (Exo_Rd en); auto.
    apply commas_length_in in I as I'. destruct ps as [|z ps]; [contradiction|].
    cbn [length] in Hn. rewrite map_id in Hn. lia.
  - apply bound_Rt; auto. lia.
  - apply bound_Rt; auto. lia.
Qed.
Lemma fopts_Rd en x y n :
  fopts_ex en x y -> 8 * length (orders_text (fo_orderby y)) + 4 <= n ->
  8 * length (fopts_text y) + 4 <= n -> fopts_rel (p_bool en n 0) x y.
Proof.
  intros [H1 H2 H3 H4 H5] Ho Hn. destruct y as [ob fi wi ig]. unfold fopts_text in Hn.
  cbn [fopts_toks fo_orderby fo_filter fo_window fo_ignore] in *. rewrite !app_length in Hn.
  constructor; cbn [fo_orderby fo_filter fo_window fo_ignore]; auto.
  - apply orders_Rd; auto.
  - destruct (fo_filter x), fi; cbn [opt_rel] in *; auto. apply (Exo_Rd en); auto.
    cbn [filter_toks length] in Hn. rewrite app_length in Hn. lia.
  - destruct (fo_window x), wi; cbn [opt_rel] in *; auto. apply window_Rd; auto.
    cbn [over_toks length] in Hn. unfold paren in Hn. cbn [length] in Hn. rewrite app_length in Hn.
    fold (window_text w0) in Hn. lia.
Qed.

(** Functions called by name. *)
Definition callable (f : fn) : bool := (negb (fn_bare f) && negb (fn_special f))%bool.
Lemma fn_tok f : callable f = true ->
  exists t, lex (fn_name f) = [t]
    /\ (forall c ts, second (t :: ts) = true -> start c (t :: ts))
    /\ forall en pe pv pq r v rest,
         p_call en pe [IdUnquoted (fn_name f)] r = Ok (v, rest) ->
         prim_head en pe pv pq (t :: TSym "(" :: r) = Ok (v, rest).
Proof.
  destruct f; intro H; try discriminate H; clear H;
    (eexists; split; [vm_compute; reflexivity|]; split;
     [ intros c ts S; split; [constructor; auto; fail | reflexivity]
     | intros en pe pv pq r v rest P;
       match type of P with p_call _ _ [IdUnquoted ?n] _ = _ =>
         let n' := eval vm_compute in n in change n with n' in P end;
       match type of P with ?a = _ =>
         transitivity (orelse a (fun _ => Err SyntaxErr));
         [reflexivity | rewrite P; reflexivity] end ]).
Qed.

Lemma v_call_ok' en f l fo :
  names_to_functions en (fn_name f) = Some f -> typed (NFunc f l fo) ->
  (f = FFromUnixtime -> length l <> 1) -> (f = FApproxPercentile -> length l <> 3) ->
  fo_filter fo <> Some NNone ->
  v_call en [IdUnquoted (fn_name f)] (call_of fo l) = Ok (NFunc f l fo).
Proof.
  intros R T Hu Hp Hf. unfold v_call, v_names. cbn [each visit_ident bind]. rewrite names_upper, R.
  pose proof (typed_mk _ T) as M. destruct T as [ty T]. cbn [wrapped check tyof] in T.
  assert (Hargs : existsb is_none l = false).
  { destruct (each (fun x => wrapped x (check x)) l) as [ts|] eqn:Et; [|discriminate T].
    clear -Et. revert ts Et. induction l as [|x l IH]; intros ts Et; [reflexivity|].
    cbn [each] in Et. destruct (wrapped x (check x)) eqn:Ew; [|discriminate]. cbn [bind] in Et.
    destruct (each _ l) as [ts'|]; [|discriminate]. cbn [existsb]. rewrite (IH _ eq_refl).
    destruct x; try reflexivity. discriminate Ew. }
  destruct (each (fun x => wrapped x (check x)) l) as [ts|] eqn:Et; [|discriminate T]. cbn [bind] in T.
  match type of T with context [fopts_ok ?a ?b fo] => destruct (fopts_ok a b fo) eqn:Eo end; [|discriminate T].
  cbn [bind] in T. destruct (fn_special f); [discriminate T|].
  destruct (arity_ok f (length l)) eqn:Ea; [|discriminate T]. cbn [negb] in T.
  destruct (negb (is_aggregate f) && negb (fopts_empty fo))%bool eqn:Eag; [discriminate T|]. clear T.
  destruct fo as [ob fi wi ig]. cbn [call_of c_over c_sorts c_filter c_null c_args fo_orderby fo_filter fo_window fo_ignore] in *.
  assert (Hk : forall kw, (kw = true -> is_aggregate f = true) ->
     from_args f l kw (mkFopts ob fi wi ig) = Ok (NFunc f l (mkFopts ob fi wi ig))).
  { intros kw Hkw. unfold from_args. rewrite Hargs. cbn [andb].
    assert (negb kw || is_aggregate f = true)%bool as ->.
    { destruct kw; [rewrite Hkw; reflexivity | reflexivity]. }
    cbn [py_assert bind]. unfold arity_ok in Ea.
    destruct f; try exact M.
    - destruct l as [|x1 [|x2 [|x3 [|x4 l]]]]; try exact M. exfalso; now apply Hp.
    - destruct l as [|x1 [|x2 [|x3 [|x4 l]]]]; try exact M; try discriminate Ea. exfalso; now apply Hu. }
  assert (Hag : fopts_empty (mkFopts ob fi wi ig) = false -> is_aggregate f = true).
  { intro E. rewrite E in Eag. destruct (is_aggregate f); [reflexivity | discriminate Eag]. }
  clear Eag M Ea.
  assert (Hfi : match (match fi with Some e => Some (Ok e) | None => None end) with
                | Some r => let* a := r in Ok (Some a) | None => Ok None end = Ok fi)
    by (destruct fi; reflexivity).
  unfold seq_opt. destruct wi as [w|].
  - rewrite Hag by (destruct ob, fi; reflexivity). cbn [py_assert bind].
    destruct ob as [|o ob]; cbn [bind]; rewrite Hfi; cbn [bind];
      (rewrite (Hk _ (fun _ => Hag ltac:(destruct fi; reflexivity)) ) || idtac).
    all: replace (match fi with Some x => opt_node x | None => None end) with fi
      by (destruct fi as [[]|]; try reflexivity; congruence).
    all: replace (match (if ig then Some true else None) with Some b => b | None => false end) with ig
      by (destruct ig; reflexivity).
    all: apply Hk; intros _; apply Hag; destruct fi; reflexivity.
  - cbn [bind]. destruct ob as [|o ob]; cbn [bind]; rewrite Hfi; cbn [bind].
    all: replace (match fi with Some x => opt_node x | None => None end) with fi
      by (destruct fi as [[]|]; try reflexivity; congruence).
    all: replace (match (if ig then Some true else None) with Some b => b | None => false end) with ig
      by (destruct ig; reflexivity).
    all: apply Hk; intro; apply Hag; destruct fi, ig; (reflexivity || discriminate).
Qed.

Lemma Ex_call en f l tss fo y :
  callable f = true -> names_to_functions en (fn_name f) = Some f ->
  Exs en l tss -> fopts_ex en fo y -> typed (NFunc f l fo) ->
  (f = FFromUnixtime -> length l <> 1) -> (f = FApproxPercentile -> length l <> 3) ->
  Ex en 9 (NFunc f l fo) (lex (fn_name f) ++ args_text tss y).
Proof.
  intros Hc R Hl Hy T Hu Hp. destruct (fn_tok f Hc) as (t & -> & Sh & P). cbn [app].
  apply mk_head; [apply Sh | exact T |].
  - unfold args_text, paren. cbn [app].
    destruct Hl as [|e ts l tss [c E] Hl].
    + destruct (fo_orderby y); reflexivity.
    + reflexivity.
  - intros n rest Hn L.
    assert (HR : exists r, args_text tss y ++ rest = TSym "(" :: r
       /\ p_call en (p_bool en n 0) [IdUnquoted (fn_name f)] r
          = Ok (v_call en [IdUnquoted (fn_name f)] (call_of fo l), rest)).
    { unfold args_text, paren in Hn. cbn [length] in Hn. rewrite !app_length in Hn. cbn [length] in Hn.
      rewrite !app_length in Hn. cbn [length] in Hn.
      apply p_call_ok; auto.
      - apply ex_rxs; auto. lia.
      - apply fopts_Rd; auto; lia. }
    destruct HR as (r & Er & Pr). cbn [app]. rewrite Er. apply P. rewrite Pr.
    rewrite v_call_ok'; auto.
    pose proof (fe_filter _ _ _ Hy) as Hf. intro E. rewrite E in Hf.
    destruct (fo_filter y); [|contradiction]. destruct Hf as [c Ec].
    now apply (typed_not_none _ (ex_typed _ _ _ _ Ec)).
Qed.
Lemma Ex_count_star en fo y :
  fopts_ex en fo y -> typed (NFunc FCount [NStar TRNone unknown] fo) ->
  Ex en 9 (NFunc FCount [NStar TRNone unknown] fo) (lex "COUNT" ++ args_text [[TSym "*"]] y).
Proof.
  intros Hy T. destruct (fn_tok FCount eq_refl) as (t & E & Sh & P).
  change (lex "COUNT") with (lex (fn_name FCount)). rewrite E. cbn [app].
  assert (Hfo : fo_orderby fo = [] /\ fo_ignore fo = false).
  { destruct T as [ty T]. cbn [wrapped check tyof each bind tref_ok py_assert] in T.
    destruct (fopts_ok _ _ fo); [|discriminate T]. cbn [bind] in T.
    change (fn_special FCount) with false in T. cbn iota in T.
    change (arity_ok FCount (length [NStar TRNone unknown])) with true in T. cbn [negb] in T.
    change (is_aggregate FCount) with true in T. cbn [negb andb] in T.
    unfold count_ok in T. destruct (fo_orderby fo), (fo_ignore fo); try discriminate T. auto. }
  destruct Hfo as [Ho Hi].
  assert (Hoy : fo_orderby y = []).
  { pose proof (fe_orderby _ _ _ Hy) as F. rewrite Ho in F. now inversion F. }
  apply mk_head; [apply Sh; reflexivity | exact T |].
  intros n rest Hn L. unfold args_text, paren in *. rewrite Hoy in *. cbn [orders_text orders_toks] in *.
  unfold orders_text in *. cbn [orders_toks commas tjoin app] in *.
  cbn [length] in Hn.
  apply P. rewrite (p_call_star en (p_bool en n 0) _ fo y rest); auto.
  - rewrite v_call_ok'; auto; try discriminate.
    pose proof (fe_filter _ _ _ Hy) as Hf. intro Ef. rewrite Ef in Hf.
    destruct (fo_filter y); [|contradiction]. destruct Hf as [c Ec].
    now apply (typed_not_none _ (ex_typed _ _ _ _ Ec)).
  - apply fopts_Rd; auto; [rewrite Hoy; unfold orders_text; cbn [orders_toks length]; lia | lia].
Qed.

(** * Functions that are keywords *)
Lemma Ex_bare en f :
  fn_bare f = true -> names_to_functions en (fn_name f) = Some f ->
  Ex en 9 (NFunc f [] no_fopts) (lex (fn_name f)).
Proof.
  intros B R.
  assert (E : lex (fn_name f) = [K (fn_name f)]) by (destruct f; try discriminate B; reflexivity).
  assert (T : typed (NFunc f [] no_fopts)) by (destruct f; try discriminate B; eexists; reflexivity).
  rewrite E. apply mk_head; [| exact T |].
  - destruct f; try discriminate B; apply shape_kw; (reflexivity || discriminate).
  - intros n rest _ L. cbn [app].
    destruct f; try discriminate B; try reflexivity.
    change (Ok (v_datetime en "CURRENT_DATE" None, rest) = Ok (Ok (NFunc FCurrentDate [] no_fopts), rest)).
    unfold v_datetime. change (upper "CURRENT_DATE") with (fn_name FCurrentDate). rewrite R. reflexivity.
Qed.
Definition is_datetime (f : fn) : bool :=
  match f with FCurrentTime | FCurrentTimestamp | FLocalTime | FLocalTimestamp => true | _ => false end.
Lemma p_datetime_none en name rest : lev rest <= 9 ->
  p_datetime en name rest = Ok (v_datetime en name None, rest).
Proof.
  intro L. unfold p_datetime.
  destruct rest as [|[ | | | | | | | | | | |a| ] [|[ | | | | | | |i| | | | | ] [|[ | | | | | | | | | | |b| ] r]]];
    try reflexivity.
  destruct (String.eqb_spec a "(") as [->|]; [exfalso; revert L; vm_compute; lia | reflexivity].
Qed.
Lemma Ex_datetime en f p :
  is_datetime f = true -> names_to_functions en (fn_name f) = Some f -> (0 <= p)%Z ->
  typed (NDateTime f p) ->
  Ex en 9 (NDateTime f p)
     (if Z.eqb p 3 then lex (fn_name f) else lex (fn_name f) ++ paren (int_toks p)).
Proof.
  intros D R Hp T.
  assert (E : lex (fn_name f) = [K (fn_name f)]) by (destruct f; try discriminate D; reflexivity).
  rewrite E. cbn [app].
  assert (S : forall ts, second (K (fn_name f) :: ts) = true -> start 9 (K (fn_name f) :: ts)).
  { intros ts H. apply shape_kw; auto; destruct f; try discriminate D; (reflexivity || discriminate). }
  assert (V : forall o, v_datetime en (fn_name f) o
              = mk (NDateTime f (match o with None => 3%Z | Some p => p end))).
  { intro o. unfold v_datetime. rewrite names_upper, R. destruct f; try discriminate D; reflexivity. }
  assert (H : forall n ts, prim_head en (p_bool en n 0) (p_value en n 0) (p_query en n) (K (fn_name f) :: ts)
              = p_datetime en (fn_name f) ts).
  { intros n ts. destruct f; try discriminate D; reflexivity. }
  destruct (Z.eqb_spec p 3) as [->|N].
  - apply mk_head; [apply S; reflexivity | exact T |].
    intros n rest _ L. cbn [app]. rewrite H, p_datetime_none by assumption. rewrite V. cbn iota.
    now rewrite (typed_mk _ T).
  - unfold int_toks. destruct (Z.ltb_spec p 0); [lia|]. unfold paren. cbn [app].
    apply mk_head; [apply S; reflexivity | exact T |].
    intros n rest _ L. cbn [app]. rewrite H. unfold Ztok.
    change (p_datetime en (fn_name f) (TSym "(" :: TInt (str_of_Z p) :: TSym ")" :: rest))
      with (Ok (v_datetime en (fn_name f) (Some (Z.of_N (N_of_str (str_of_Z p)))), rest) : vres).
    rewrite V. 
    rewrite Z_of_text by assumption. now rewrite (typed_mk _ T).
Qed.

(** * LISTAGG *)
Definition sep_text (sep : option string) : list token :=
  match sep with None => [] | Some s => [TSym ","; TString s] end.
Definition overflow_text (o : option (bool * string)) : list token :=
  match o with
  | None => []
  | Some (count, filler) =>
      [K "ON"; K "OVERFLOW"; K "TRUNCATE"; TString filler; K (if count then "WITH" else "WITHOUT"); K "COUNT"]
  end.
Lemma Ex_listagg en v tv sp ov l tl :
  Exo en v tv -> Forall2 (order_rel (Exo en)) l tl -> l <> [] ->
  typed (NListAgg v (match sp with None => " " | Some s => strip squote s end)
                  (match ov with None => None | Some (b, s) => Some (b, strip squote s) end) l) ->
  Ex en 9 (NListAgg v (match sp with None => " " | Some s => strip squote s end)
                  (match ov with None => None | Some (b, s) => Some (b, strip squote s) end) l)
     (K "LISTAGG" :: paren (tv ++ sep_text sp ++ overflow_text ov)
      ++ K "WITHIN" :: K "GROUP" :: paren (orders_text tl)).
Proof.
  intros [c E] Hl N T. apply mk_head; [| exact T |].
  - apply shape_kw; try reflexivity; discriminate.
  - intros n rest Hn L. unfold paren in *. cbn [app length] in *. rewrite !app_length in Hn. cbn [length] in Hn.
    repeat (rewrite !app_length in Hn; cbn [length] in Hn).
    rewrite <- !app_assoc. cbn [app].
    match goal with |- prim_head _ _ _ _ (_ :: TSym "(" :: ?r) = _ =>
      change (p_listagg (p_bool en n 0) r = Ok (Ok (NListAgg v
         (match sp with None => " " | Some s => strip squote s end)
         (match ov with None => None | Some (b, s) => Some (b, strip squote s) end) l), rest)) end.
    unfold p_listagg. rewrite quant_none by (apply (shape_weak c); [apply E | lia | lia]).
    rewrite (ex_rd en c v tv n E); [|lia|].
    2:{ destruct sp; [reflexivity|]. destruct ov as [[b s]|]; reflexivity. }
    cbn [bind].
    set (tail := TSym ")" :: K "WITHIN" :: K "GROUP" :: TSym "(" :: (orders_text tl ++ [TSym ")"]) ++ rest).
    assert (Hs : match eat_sym "," (sep_text sp ++ overflow_text ov ++ tail) with
      | Some r2 => match p_string r2 with
                   | Some (s, r3) => Ok (Some s, r3)
                   | None => Err SyntaxErr
                   end
      | None => Ok (None, sep_text sp ++ overflow_text ov ++ tail)
      end = Ok (match sp with None => None | Some s => Some (Ok (strip squote s)) end, overflow_text ov ++ tail)).
    { destruct sp as [s|]; [reflexivity|]. destruct ov as [[b s]|]; reflexivity. }
    rewrite Hs. cbn [bind]. clear Hs.
    assert (Hv : match eat_kw "ON" (overflow_text ov ++ tail) with
      | Some r3 => let* r4 := need (eat_kw "OVERFLOW" r3) in
                   let* (o, r5) := p_overflow r4 in Ok (Some o, r5)
      | None => Ok (None, overflow_text ov ++ tail)
      end = Ok (match ov with None => None | Some (b, s) => Some (Ok (Some (b, strip squote s))) end, tail)).
    { destruct ov as [[b s]|]; [|reflexivity]. destruct b; reflexivity. }
    rewrite Hv. cbn [bind]. clear Hv. unfold tail. rewrite eat_sym_same. cbn [need bind].
    rewrite !eat_kw_same. cbn [need bind]. rewrite eat_kw_same. cbn [need bind].
    rewrite eat_sym_same. cbn [need bind]. rewrite <- app_assoc. cbn [app].
    rewrite (p_orderby_ok (p_bool en n 0) l tl); [| apply orders_Rd; auto; lia | repeat split].
    cbn [bind]. destruct l as [|o l]; [congruence|]. rewrite eat_sym_same. cbn [need bind].
    unfold v_listagg. destruct sp as [s|], ov as [[b s']|]; cbn [seq_opt bind]; now rewrite (typed_mk _ T).
Qed.
