(** Facts about the parser: ways to write things that the printer never uses.
    Names are plain words here (quotes do not matter, Spelling.v), and the
    keywords that may serve as names come in any spelling. *)
From Coq Require Import String Ascii List ZArith NArith Bool Lia Arith.
From Verif Require Import PyStr StrFacts Types Inference Lexer LexFacts TypeParser TypeFacts TypeRoundTrip
  Functions FunctionFacts Ast Sql Parser Tokens ReadsFacts ParseBase ParseParts ParseExpr ParsePrim ParseForms ParseMain Grammar.
Import ListNotations.
Open Scope nat_scope.
Open Scope string_scope.
Open Scope list_scope.

Lemma eat_word k t r : word k t -> eat_kw k (t :: r) = Some r.
Proof. intros [x ->]. cbn. now rewrite String.eqb_refl. Qed.
Lemma eat_other k k' t r : word k t -> k <> k' -> eat_kw k' (t :: r) = None.
Proof. intros [x ->] N. cbn. now destruct (String.eqb_spec k k'). Qed.
Lemma lev_word k t r : word k t -> lev (t :: r) = kw_lev k.
Proof. intros [x ->]. reflexivity. Qed.
Lemma K_word k : word k (K k).
Proof. now exists k. Qed.

(** * Values that the constructors accept *)
Lemma starter_expr t r : starter t = true -> starts_expr (t :: r) = true.
Proof.
  destruct t as [k x| | | | | | | | | | |s|c]; cbn [starter]; try discriminate; try reflexivity.
  - intro H. apply andb_true_iff in H as [H _]. exact H.
  - unfold mem, starts_expr. cbn [existsb]. intro H.
    repeat match type of H with context [String.eqb s ?w] => destruct (String.eqb_spec s w) as [->|] end;
      try reflexivity; discriminate H.
Qed.
Lemma Ex_starts en c e ts r : Ex en c e ts -> starts_expr (ts ++ r) = true.
Proof.
  intro E. pose proof (sh_first _ _ (ex_shape _ _ _ _ E)) as S. destruct ts as [|t ts]; [contradiction|].
  now apply starter_expr.
Qed.
Lemma Ex_no_kw en c e ts k r : Ex en c e ts -> starter (TKw k k) = false -> eat_kw k (ts ++ r) = None.
Proof.
  intros E S. apply not_kw; [|exact S]. apply (shape_weak c); [apply E | lia | lia].
Qed.

(** * Ordering terms *)
Definition Sr (en : env) (x : order node) (ts : list token) : Prop :=
  forall n rest, 8 * length ts + 4 <= n -> sort_end rest ->
    p_sort (p_bool en n 0) (ts ++ rest) = Ok (Ok x, rest).
Lemma Sr_sort en e te d td f tf :
  Exo en e te -> direction d td -> nulls f tf -> Sr en (mkOrder e d f) (te ++ td ++ tf).
Proof.
  intros [c E] D N n rest Hn (L & A & B & C). rewrite !app_length in Hn. rewrite <- !app_assoc.
  unfold p_sort. rewrite (ex_rd en c e te); [| exact E | lia |].
  2:{ destruct D as [|t W|t W]; cbn [app]; [|now rewrite (lev_word _ _ _ W)..].
      destruct N as [|t u W|t u W]; cbn [app]; [exact L | now rewrite (lev_word _ _ _ W)..]. }
  cbn [bind].
  assert (H : (match eat_kw "ASC" (td ++ tf ++ rest) with
               | Some r1 => (false, r1)
               | None => match eat_kw "DESC" (td ++ tf ++ rest) with
                         | Some r1 => (true, r1) | None => (false, td ++ tf ++ rest) end
               end) = (d, tf ++ rest)).
  { destruct D as [|t W|t W]; cbn [app].
    - destruct N as [|t u W|t u W]; cbn [app]; [now rewrite A, B |..];
        now rewrite (eat_other _ "ASC" _ _ W), (eat_other _ "DESC" _ _ W) by discriminate.
    - now rewrite (eat_word _ _ _ W).
    - now rewrite (eat_other _ "ASC" _ _ W), (eat_word _ _ _ W) by discriminate. }
  rewrite H. destruct N as [|t u W V|t u W V]; cbn [app].
  - now rewrite C.
  - now rewrite (eat_word _ _ _ W), (eat_word _ _ _ V).
  - rewrite (eat_word _ _ _ W), (eat_other _ "FIRST" _ _ V), (eat_word _ _ _ V) by discriminate. reflexivity.
Qed.
Lemma sort_comma r : sort_end (TSym "," :: r).
Proof. repeat split; reflexivity. Qed.
Lemma sorts_read en l tss n rest :
  Forall2 (Sr en) l tss -> l <> [] -> 8 * length (commas tss) + 4 <= n -> sort_end rest -> eat_sym "," rest = None ->
  sep (p_sort (p_bool en n 0)) (commas tss ++ rest) = Ok (Ok l, rest).
Proof.
  intros F N Hn S C. apply sep_ok; auto. eapply Forall2_in; [|exact F].
  intros x ts I H r Hr. apply H; [pose proof (commas_length_in _ _ I); lia |].
  destruct Hr as [->|[r' ->]]; [exact S | apply sort_comma].
Qed.
(** An optional ORDER BY clause. *)
Record Or (en : env) (l : list (order node)) (ts : list token) : Prop := {
  or_first : (l = [] /\ ts = []) \/ (l <> [] /\ exists r, ts = K "ORDER" :: r);
  or_read : forall n rest, 8 * length ts + 4 <= n -> orders_end rest ->
    p_orderby (p_bool en n 0) (ts ++ rest) = Ok (match l with [] => None | _ => Some (Ok l) end, rest) }.
Lemma Or_none en : Or en [] [].
Proof.
  constructor; [now left|]. intros n rest _ (_ & _ & E). unfold p_orderby. cbn [app]. now rewrite E.
Qed.
Lemma Or_some en l tss :
  Forall2 (Sr en) l tss -> l <> [] -> Or en l (K "ORDER" :: K "BY" :: commas tss).
Proof.
  intros F N. constructor; [right; eauto|]. intros n rest Hn (S & C & _). cbn [length] in Hn.
  unfold p_orderby. cbn [app]. rewrite eat_kw_same. cbn [need bind]. rewrite eat_kw_same. cbn [need bind].
  rewrite (sorts_read en l tss); auto; [|lia]. cbn [bind]. destruct l; [congruence | reflexivity].
Qed.

(** * Windows *)
(** What follows ROWS and the like if they start a frame. *)
Definition frame_next (ts : list token) : bool :=
  match ts with
  | TSym s :: _ => negb (String.eqb s ")")
  | TKw k _ :: _ => negb (mem k ["PARTITION"; "ORDER"; "RANGE"; "ROWS"; "GROUPS"])
  | _ :: _ => true
  | [] => false
  end.
(** A bound of a frame; it does not start with BETWEEN. *)
Record Br (en : env) (b : bound node) (ts : list token) : Prop := {
  br_first : forall r, eat_kw "BETWEEN" (ts ++ r) = None;
  br_next : frame_next ts = true;
  br_read : forall n rest, 8 * length ts + 4 <= n ->
    p_bound (p_bool en n 0) (ts ++ rest) = Ok (Ok b, rest) }.
Lemma direction_word d t r : word (side d) t -> p_direction (t :: r) = Ok (d, r).
Proof. intros [x ->]. destruct d; reflexivity. Qed.
Lemma Br_unbounded en d t u : word "UNBOUNDED" t -> word (side d) u -> Br en (BUnbounded d) [t; u].
Proof.
  intros W V. constructor; [intro r; cbn [app]; now apply (eat_other _ _ _ _ W) | destruct W as [x ->]; reflexivity |].
  intros n rest _. unfold p_bound.
  cbn [app]. rewrite (eat_word _ _ _ W), (direction_word d u rest V). reflexivity.
Qed.
Lemma Br_current en t u : word "CURRENT" t -> word "ROW" u -> Br en BCurrent [t; u].
Proof.
  intros W V. constructor; [intro r; cbn [app]; now apply (eat_other _ _ _ _ W) | destruct W as [x ->]; reflexivity |].
  intros n rest _. unfold p_bound.
  cbn [app]. rewrite (eat_other _ "UNBOUNDED" _ _ W), (eat_word _ _ _ W) by discriminate. cbn [need bind].
  rewrite (eat_word _ _ _ V). reflexivity.
Qed.
Lemma Ex_next en c e ts r : Ex en c e ts -> frame_next (ts ++ r) = true.
Proof.
  intro E. pose proof (sh_first _ _ (ex_shape _ _ _ _ E)) as S. destruct ts as [|t ts]; [contradiction|]. cbn [app].
  destruct t as [k x| | | | | | | | | | |s|c']; try reflexivity; cbn [frame_next].
  - destruct (mem k ["PARTITION"; "ORDER"; "RANGE"; "ROWS"; "GROUPS"]) eqn:M; [exfalso|reflexivity].
    unfold mem in M. cbn [existsb] in M.
    repeat match type of M with context [String.eqb k ?w] => destruct (String.eqb_spec k w) as [->|] end;
      discriminate.
  - destruct (String.eqb_spec s ")") as [->|]; [discriminate S|reflexivity].
Qed.
Lemma Br_bounded en d e te u : Exo en e te -> word (side d) u -> Br en (BBounded d e) (te ++ [u]).
Proof.
  intros [c E] V. constructor.
  - intro r. rewrite <- app_assoc. now apply (Ex_no_kw en c e).
  - now apply (Ex_next en c e).
  - intros n rest Hn. rewrite app_length in Hn. cbn [length] in Hn. rewrite <- app_assoc. cbn [app]. unfold p_bound.
    rewrite (Ex_no_kw en c e te "UNBOUNDED"), (Ex_no_kw en c e te "CURRENT") by (assumption || reflexivity).
    cbn [need bind orelse]. rewrite (ex_rd en c e te); [| exact E | lia |].
    2:{ rewrite (lev_word _ _ _ V). destruct d; reflexivity. }
    cbn [bind]. rewrite (direction_word d u rest V). cbn [bind].
    destruct (ex_typed _ _ _ _ E) as [t T]. rewrite T. reflexivity.
Qed.
(** An optional frame. *)
Inductive Fr (en : env) : frame_type -> bound node -> bound node -> list token -> Prop :=
| Fr_none : Fr en (w_frame (@default_window node)) (w_start default_window) (w_end default_window) []
| Fr_some f s e t r : word (frame_text f) t -> frame_next r = true ->
    (forall n rest, 8 * length r + 4 <= n ->
       p_frame (p_bool en n 0) f (r ++ rest) = Ok (Ok (mkWindow None [] [] f s e), rest)) ->
    Fr en f s e (t :: r).
Lemma Fr_start en f t s ts : word (frame_text f) t -> Br en s ts -> Fr en f s BCurrent (t :: ts).
Proof.
  intros W B. apply Fr_some; [exact W | apply B |]. intros n rest Hn. unfold p_frame.
  rewrite (br_first _ _ _ B), (br_read _ _ _ B) by lia. reflexivity.
Qed.
Lemma Fr_between en f t s ts e te :
  word (frame_text f) t -> Br en s ts -> Br en e te -> Fr en f s e (t :: K "BETWEEN" :: ts ++ K "AND" :: te).
Proof.
  intros W B C. apply Fr_some; [exact W | reflexivity |]. intros n rest Hn. cbn [length] in Hn. rewrite app_length in Hn.
  cbn [length] in Hn. unfold p_frame. cbn [app]. rewrite eat_kw_same, <- app_assoc.
  rewrite (br_read _ _ _ B) by lia. cbn [app bind]. rewrite eat_kw_same. cbn [need bind].
  rewrite (br_read _ _ _ C) by lia. reflexivity.
Qed.
(** What PARTITION BY lists. *)
Inductive partition (en : env) : list node -> list token -> Prop :=
| part_none : partition en [] []
| part_by l tss t : word "PARTITION" t -> Exs en l tss -> l <> [] -> partition en l (t :: K "BY" :: commas tss).
Definition Wn (en : env) (w : window node) (ts : list token) : Prop :=
  forall n rest, 8 * length ts + 4 <= n ->
    p_winspec (p_bool en n 0) (ts ++ TSym ")" :: rest) = Ok (Ok w, TSym ")" :: rest).
Lemma frame_words f t r : word (frame_text f) t ->
  eat_kw "PARTITION" (t :: r) = None /\ orders_end (t :: r) /\ frame_ahead (t :: r) = Some (f, r).
Proof. intros [x ->]. destruct f; repeat split; reflexivity. Qed.
Lemma frame_not_name f t r r' : word (frame_text f) t -> frame_next r = true ->
  window_name_ahead (t :: r ++ r') = false.
Proof.
  intros [x ->] N.
  assert (H : match r ++ r' with
              | TSym s :: _ => negb (String.eqb s ")")
              | TKw k2 _ :: _ => negb (mem k2 ["PARTITION"; "ORDER"; "RANGE"; "ROWS"; "GROUPS"])
              | _ => true
              end = true) by (destruct r as [|[] r]; try reflexivity; (discriminate N || exact N)).
  assert (G : window_name_ahead (TKw (frame_text f) x :: r ++ r')
              = negb (match r ++ r' with
                      | TSym s :: _ => negb (String.eqb s ")")
                      | TKw k2 _ :: _ => negb (mem k2 ["PARTITION"; "ORDER"; "RANGE"; "ROWS"; "GROUPS"])
                      | _ => true
                      end)).
  { destruct f; destruct (r ++ r') as [|[] ?]; reflexivity. }
  now rewrite G, H.
Qed.
Lemma exs_read en l tss n rest :
  Exs en l tss -> l <> [] -> 8 * length (commas tss) + 4 <= n -> lev rest = 0 -> eat_sym "," rest = None ->
  sep (p_bool en n 0) (commas tss ++ rest) = Ok (Ok l, rest).
Proof. intros F N Hn L C. apply exprs_ok; auto. apply Rx_Rd. now apply ex_rxs. Qed.
Lemma Or_after en l ts r : Or en l ts -> orders_end r -> eat_sym "," (ts ++ r) = None /\ lev (ts ++ r) = 0.
Proof.
  intros O ((L & _) & C & _). destruct (or_first _ _ _ O) as [[_ ->]|(_ & x & ->)]; [split; assumption | split; reflexivity].
Qed.
Lemma Wn_spec en p tp ps tps ob tob f s e tf :
  parent p tp -> partition en ps tps -> Or en ob tob -> Fr en f s e tf ->
  Wn en (mkWindow p ob ps f s e) (tp ++ tps ++ tob ++ tf).
Proof.
  intros P Ps O F n rest Hn. rewrite !app_length in Hn. rewrite <- !app_assoc.
  set (k3 := tf ++ TSym ")" :: rest).
  set (np := match p with None => None | Some i => Some (IdUnquoted i) end).
  set (nps := match ps with [] => None | _ => Some (Ok ps) end).
  set (nob := match ob with [] => None | _ => Some (Ok ob) end).
  assert (Op : orders_end k3 /\ eat_kw "PARTITION" k3 = None /\ window_name_ahead k3 = false).
  { subst k3. destruct F as [|f s e t r W N H]; [repeat split; reflexivity|]. cbn [app].
    destruct (frame_words f t (r ++ TSym ")" :: rest) W) as (A & B & _). split; [exact B|]. split; [exact A|].
    now apply (frame_not_name f). }
  destruct Op as (OE & NP & NN).
  assert (F3 : match frame_ahead k3 with
       | Some (g, r3) => let* (w, r4) := p_frame (p_bool en n 0) g r3 in Ok (v_winspec np nps nob (Some w), r4)
       | None => Ok (v_winspec np nps nob None, k3)
       end = Ok (Ok (mkWindow p ob ps f s e), TSym ")" :: rest)).
  { subst k3. destruct F as [|f s e t r W N H]; cbn [app].
    - subst np nps nob. destruct p, ps, ob; reflexivity.
    - destruct (frame_words f t (r ++ TSym ")" :: rest) W) as (_ & _ & ->).
      rewrite H by (cbn [length] in Hn; lia). subst np nps nob. destruct p, ps, ob; reflexivity. }
  assert (NO : window_name_ahead (tob ++ k3) = false /\ eat_kw "PARTITION" (tob ++ k3) = None).
  { destruct (or_first _ _ _ O) as [[_ ->]|(_ & x & ->)]; [now split | split; reflexivity]. }
  assert (N1 : window_name_ahead (tps ++ tob ++ k3) = false).
  { destruct Ps as [|l tss t W _ _]; [apply NO|]. destruct W as [x ->]. cbn [app]. reflexivity. }
  assert (P2 : match eat_kw "PARTITION" (tps ++ tob ++ k3) with
               | Some r1 => let* r2 := need (eat_kw "BY" r1) in
                            let* (l, r3) := sep (p_bool en n 0) r2 in Ok (Some l, r3)
               | None => Ok (None, tps ++ tob ++ k3)
               end = Ok (nps, tob ++ k3)).
  { destruct Ps as [|l tss t W E N].
    - cbn [app]. destruct NO as [_ ->]. reflexivity.
    - cbn [app]. rewrite (eat_word _ _ _ W), eat_kw_same. cbn [need bind].
      destruct (Or_after en ob tob k3 O OE) as [C L]. cbn [length] in Hn.
      rewrite (exs_read en l tss); auto; [|lia]. subst nps. destruct l; [congruence | reflexivity]. }
  assert (P1 : (if window_name_ahead (tp ++ tps ++ tob ++ k3)
                then let* (i, r) := p_ident (tp ++ tps ++ tob ++ k3) in Ok (Some i, r)
                else Ok (None, tp ++ tps ++ tob ++ k3)) = Ok (np, tps ++ tob ++ k3)).
  { destruct P as [|i]; [|reflexivity]. cbn [app]. now rewrite N1. }
  unfold p_winspec. rewrite P1. cbn [bind]. rewrite P2. cbn [bind].
  rewrite (or_read _ _ _ O); [| lia | exact OE]. cbn [bind]. exact F3.
Qed.
(** An optional OVER. *)
Record Ov (en : env) (o : option (window node)) (ts : list token) : Prop := {
  ov_first : (o = None /\ ts = []) \/ (o <> None /\ (exists x r, ts = TKw "OVER" x :: r)
             /\ forall r, measure_ahead (ts ++ r) = true);
  ov_read : forall n rest, 8 * length ts + 4 <= n -> lev rest <= 9 ->
    p_over (p_bool en n 0) (ts ++ rest) = Ok (match o with None => None | Some w => Some (Ok w) end, rest) }.
Lemma Ov_none en : Ov en None [].
Proof.
  constructor; [now left|]. intros n rest _ L. unfold p_over. cbn [app]. now rewrite (lev_no_kw rest "OVER").
Qed.
Lemma Ov_spec en t w tw : word "OVER" t -> Wn en w tw -> Ov en (Some w) (t :: paren tw).
Proof.
  intros [x ->] W. constructor.
  - right. split; [discriminate|]. split; [eauto|]. reflexivity.
  - intros n rest Hn L. unfold paren in *. cbn [length] in Hn. rewrite app_length in Hn. cbn [length] in Hn.
    unfold p_over. cbn [app eat_kw String.eqb Ascii.eqb Bool.eqb]. rewrite eat_sym_same, <- app_assoc.
    cbn [app]. rewrite (W n rest) by lia. cbn [bind]. rewrite eat_sym_same. reflexivity.
Qed.
Lemma Ov_name en t p : word "OVER" t -> Ov en (Some (set_parent (Some p) default_window)) [t; TId p].
Proof. intros [x ->]. constructor; [right; split; [discriminate|]; split; eauto; reflexivity|]. reflexivity. Qed.

(** * Calls *)
(** An optional FILTER. *)
Inductive Fl (en : env) : option node -> list token -> Prop :=
| Fl_none : Fl en None []
| Fl_some t e te : word "FILTER" t -> Exo en e te ->
    Fl en (Some e) (t :: TSym "(" :: K "WHERE" :: te ++ [TSym ")"])
| Fl_lost t te : word "FILTER" t -> reads_as en NNone te ->
    Fl en None (t :: TSym "(" :: K "WHERE" :: te ++ [TSym ")"]).
Definition giveno {A} (o : option A) : option (result A) := match o with None => None | Some x => Some (Ok x) end.
Lemma Fl_read en o ts :
  Fl en o ts -> exists o0, drop_absent o0 = o /\ (ts = [] -> o0 = None)
  /\ forall n rest, 8 * length ts + 4 <= n -> eat_kw "FILTER" rest = None ->
     p_filter (p_bool en n 0) (ts ++ rest) = Ok (giveno o0, rest).
Proof.
  intros F. destruct F as [|t e te W [c E]|t te W E]; [exists None | exists (Some e) | exists (Some NNone)];
    (split; [|split; [discriminate || reflexivity | intros n rest Hn N]]); try reflexivity;
    unfold p_filter; cbn [app].
  - now rewrite N.
  - pose proof (typed_not_none _ (ex_typed _ _ _ _ E)). destruct e; try reflexivity; congruence.
  - rewrite (eat_word _ _ _ W), eat_sym_same, eat_kw_same. cbn [need bind]. cbn [length] in Hn.
    rewrite app_length in Hn. rewrite <- app_assoc.
    rewrite (ex_rd en c e te); [| exact E | lia | reflexivity]. reflexivity.
  - rewrite (eat_word _ _ _ W), eat_sym_same, eat_kw_same. cbn [need bind]. cbn [length] in Hn.
    rewrite app_length in Hn. rewrite <- app_assoc.
    rewrite (E n); [| lia | reflexivity]. reflexivity.
Qed.
Lemma null_read en tr tn w tw rest :
  treatment tr tn -> Ov en w tw -> (tr <> None -> w <> None) -> lev rest <= 9 ->
  p_null_treatment (tn ++ tw ++ rest) = (tr, tw ++ rest) /\ eat_kw "FILTER" (tn ++ tw ++ rest) = None.
Proof.
  intros T O H L.
  destruct T as [|t u [x ->] [y ->]|t u [x ->] [y ->]].
  - cbn [app]. destruct (ov_first _ _ _ O) as [[_ ->]|(_ & (x & r & ->) & _)]; cbn [app].
    + split; [|now apply lev_no_kw]. unfold p_null_treatment.
      destruct rest as [|[k| | | | | | | | | | | | ] [|[n| | | | | | | | | | | | ] r]]; try reflexivity.
      destruct (String.eqb_spec k "IGNORE") as [->|]; [exfalso; revert L; vm_compute; lia|].
      destruct (String.eqb_spec k "RESPECT") as [->|]; [exfalso; revert L; vm_compute; lia|]. reflexivity.
    + split; [|reflexivity]. destruct (r ++ rest) as [|[] ?]; reflexivity.
  - split; [|reflexivity].
    destruct (ov_first _ _ _ O) as [[-> _]|(_ & _ & M)]; [exfalso; now apply H|].
    cbn [app p_null_treatment String.eqb Ascii.eqb Bool.eqb]. now rewrite M.
  - split; [|reflexivity].
    destruct (ov_first _ _ _ O) as [[-> _]|(_ & _ & M)]; [exfalso; now apply H|].
    cbn [app p_null_treatment String.eqb Ascii.eqb Bool.eqb]. now rewrite M.
Qed.

Lemma call_first t n : call_word t n ->
  (forall c ts, second (t :: ts) = true -> start c (t :: ts))
  /\ forall en pe pv pq r v rest,
       p_call en pe [IdUnquoted n] r = Ok (v, rest) ->
       prim_head en pe pv pq (t :: TSym "(" :: r) = Ok (v, rest).
Proof.
  intros [->|(k & -> & M)].
  - split; [intros c ts S; split; [constructor; auto; fail | reflexivity]|]. intros en pe pv pq r v rest P.
    transitivity (orelse (p_call en pe [IdUnquoted n] r) (fun _ => Err SyntaxErr)); [reflexivity | now rewrite P].
  - unfold mem, call_words in M. cbn [existsb] in M.
    repeat match type of M with context [String.eqb k ?w] =>
      let E := fresh in destruct (String.eqb_spec k w) as [E|E]; [try (subst k; clear M)|] end;
      try discriminate M.
    all: split; [intros c ts S; split; [constructor; auto; fail | reflexivity]|]; intros en pe pv pq r v rest P.
    all: transitivity (orelse (p_call en pe [IdUnquoted n] r) (fun _ => Err SyntaxErr)); [reflexivity | now rewrite P].
Qed.

Inductive Ar (en : env) : list node -> list token -> Prop :=
| Ar_none : Ar en [] []
| Ar_some q l tss : quantifier q -> Exs en l tss -> l <> [] -> Ar en l (q ++ commas tss).
Lemma quant_read en q l tss r : quantifier q -> Exs en l tss -> l <> [] ->
  exists t, p_quant (q ++ commas tss ++ r) = (t, commas tss ++ r).
Proof.
  intros Q E N. inversion E as [|e ts l' tss' [c X] F]; subst; [congruence|].
  destruct (commas_first ts tss' r) as (k & -> & _).
  destruct Q as [->|(t & [[x ->]|[x ->]] & ->)]; cbn [app].
  - exists None. apply quant_none. apply (shape_weak c); [apply X | lia | lia].
  - exists (Some x). reflexivity.
  - exists (Some x). cbn [p_quant String.eqb Ascii.eqb Bool.eqb]. now rewrite (Ex_starts en c e ts k X).
Qed.
Lemma Ar_read en l ts n r :
  Ar en l ts -> 8 * length ts + 4 <= n -> lev r = 0 -> eat_sym "," r = None -> eat_sym "." r = None ->
  no_args_ahead r = true -> star_ahead r = None ->
  star_ahead (ts ++ r) = None
  /\ (if no_args_ahead (ts ++ r) then Ok (Ok [], ts ++ r)
      else let '(_, r) := p_quant (ts ++ r) in sep (p_bool en n 0) r) = Ok (Ok l, r).
Proof.
  intros A Hn L C D Z S. destruct A as [|q l tss Q E N].
  - cbn [app]. now rewrite Z.
  - rewrite app_length in Hn. rewrite <- app_assoc. destruct (quant_read en q l tss r Q E N) as (t & ->).
    assert (X : star_ahead (q ++ commas tss ++ r) = None /\ no_args_ahead (q ++ commas tss ++ r) = false).
    { inversion E as [|e ts l' tss' [c X] F]; subst; [congruence|].
      destruct (commas_first ts tss' r) as (k & -> & Hk).
      assert (Sh : shape 0 ts) by (apply (shape_weak c); [apply X | lia | lia]).
      destruct Q as [->|(u & [[x ->]|[x ->]] & ->)]; cbn [app].
      - split; [|now apply args_ahead]. apply star_none; [exact Sh|]. destruct Hk as [->|[k' ->]]; [exact D|reflexivity].
      - split; reflexivity.
      - split; [|reflexivity]. pose proof (sh_first _ _ Sh) as S1.
        change (match ts ++ k with
                | TSym d :: TSym a :: TSym b :: r0 =>
                    if (String.eqb d "." && String.eqb a "*" && String.eqb b ")")%bool
                    then Some (mk (NStar (TRStr x) unknown), r0) else None
                | _ => None
                end = None).
        destruct ts as [|[| | | | | | | | | | |s|] ts]; try contradiction; try reflexivity. cbn [app].
        destruct (String.eqb_spec s ".") as [->|]; [discriminate S1|]. cbn [andb].
        destruct (ts ++ k) as [|[| | | | | | | | | | |a|] [|[| | | | | | | | | | |b|] ?]]; reflexivity. }
    destruct X as [-> ->]. split; [reflexivity|]. now apply exs_read; auto; lia.
Qed.

Lemma args_some l ts : each (fun x => wrapped x (check x)) l = Ok ts -> existsb is_none l = false.
Proof.
  revert ts. induction l as [|x l IH]; intros ts Et; [reflexivity|].
  cbn [each] in Et. destruct (wrapped x (check x)) eqn:Ew; [|discriminate]. cbn [bind] in Et.
  destruct (each _ l) as [ts'|]; [|discriminate]. cbn [existsb]. rewrite (IH _ eq_refl).
  destruct x; try reflexivity. discriminate Ew.
Qed.
Lemma arranged_none f l : existsb is_none (arranged f l) = existsb is_none l.
Proof.
  unfold arranged. destruct f; try reflexivity. destruct l as [|a [|b [|c [|d l]]]]; try reflexivity.
  cbn [existsb]. destruct (is_none a), (is_none b), (is_none c); reflexivity.
Qed.
Lemma arranged_length f l : length (arranged f l) = length l.
Proof. unfold arranged. destruct f; try reflexivity. destruct l as [|a [|b [|c [|d l]]]]; reflexivity. Qed.
Definition given {A} (l : list A) : option (result (list A)) := match l with [] => None | _ => Some (Ok l) end.
Lemma v_call_read en n f l ob fi0 fi wi tr :
  names_to_functions en (upper n) = Some f ->
  typed (NFunc f (arranged f l) (mkFopts ob fi wi (ignores tr))) ->
  (f = FFromUnixtime -> length l <> 1) -> drop_absent fi0 = fi -> (fi0 <> None -> is_aggregate f = true) ->
  (tr <> None -> wi <> None) ->
  v_call en [IdUnquoted n] (mkCall (giveno wi) (given ob) (giveno fi0) tr (Ok l))
  = Ok (NFunc f (arranged f l) (mkFopts ob fi wi (ignores tr))).
Proof.
  intros R T Hu Hf Hn Ht. unfold v_call, v_names. cbn [each visit_ident bind]. rewrite R.
  pose proof (typed_mk _ T) as M. destruct T as [ty T]. cbn [wrapped check tyof] in T.
  destruct (each (fun x => wrapped x (check x)) (arranged f l)) as [ts|] eqn:Et; [|discriminate T].
  pose proof (args_some _ _ Et) as Hargs. rewrite arranged_none in Hargs. cbn [bind] in T.
  match type of T with context [fopts_ok ?a ?b ?c] => destruct (fopts_ok a b c) eqn:Eo end; [|discriminate T].
  cbn [bind] in T. destruct (fn_special f); [discriminate T|].
  destruct (arity_ok f (length (arranged f l))) eqn:Ea; [|discriminate T]. cbn [negb] in T.
  match type of T with context [fopts_empty ?c] => set (fo := c) in * end.
  destruct (negb (is_aggregate f) && negb (fopts_empty fo))%bool eqn:Eag; [discriminate T|]. clear T.
  rewrite arranged_length in Ea.
  assert (Hk : forall kw, (kw = true -> is_aggregate f = true) ->
     from_args f l kw fo = Ok (NFunc f (arranged f l) fo)).
  { intros kw Hkw. unfold from_args. rewrite Hargs. cbn [andb].
    assert (negb kw || is_aggregate f = true)%bool as ->.
    { destruct kw; [rewrite Hkw; reflexivity | reflexivity]. }
    cbn [py_assert bind]. unfold arity_ok in Ea. unfold arranged in *.
    destruct f; try exact M.
    - destruct l as [|x1 [|x2 [|x3 [|x4 l]]]]; exact M.
    - destruct l as [|x1 [|x2 [|x3 [|x4 l]]]]; try exact M; try discriminate Ea. exfalso; now apply Hu. }
  assert (Hag : fopts_empty fo = false -> is_aggregate f = true).
  { intro E. rewrite E in Eag. destruct (is_aggregate f); [reflexivity | discriminate Eag]. }
  clear Eag M Ea. unfold fo in *. clear fo.
  assert (Hw : wi <> None -> is_aggregate f = true).
  { intro N. apply Hag. destruct wi as [w|]; [|congruence]. destruct ob, fi; reflexivity. }
  assert (Kw : (match wi with None => false | _ => true end || match given ob with None => false | _ => true end
           || match giveno fi0 with None => false | _ => true end || match tr with None => false | _ => true end = true)%bool
           -> is_aggregate f = true).
  { intro N. destruct wi as [w|]; [apply Hw; discriminate|]. destruct tr as [b|]; [exfalso; now apply Ht|].
    destruct fi0 as [x|]; [apply Hn; discriminate|]. apply Hag. destruct ob; [discriminate N | now destruct fi]. }
  cbn [c_over c_sorts c_filter c_null c_args].
  destruct wi as [w|]; cbn [giveno]; [rewrite Hw by discriminate; cbn [py_assert bind]|cbn [bind]].
  all: destruct ob as [|o ob]; cbn [given seq_opt bind]; destruct fi0 as [x|]; cbn [giveno seq_opt bind] in *;
    cbn [drop_absent] in Hf; rewrite ?Hf; subst fi; apply Hk; exact Kw.
Qed.

Lemma call_paren en t n f l ta ob tob fi tf tr tn w tw :
  call_word t n -> names_to_functions en (upper n) = Some f ->
  Ar en l ta -> Or en ob tob -> Fl en fi tf -> treatment tr tn -> Ov en w tw ->
  (tr <> None -> w <> None) -> (f = FFromUnixtime -> length l <> 1) -> (tf <> [] -> is_aggregate f = true) ->
  typed (NFunc f (arranged f l) (mkFopts ob fi w (ignores tr))) ->
  Ex en 9 (NFunc f (arranged f l) (mkFopts ob fi w (ignores tr)))
     (t :: paren (ta ++ tob) ++ tf ++ tn ++ tw).
Proof.
  intros W R A O F Tr Wi Ht Hu Hag T. destruct (Fl_read en fi tf F) as (fi0 & Hd & He & F1). destruct (call_first t n W) as [Sh P].
  apply mk_head; [apply Sh | exact T |].
  - unfold paren. cbn [app]. reflexivity.
  - intros m rest Hm L. unfold paren in *. cbn [app length] in *. rewrite !app_length in Hm. cbn [length] in Hm.
    apply P. rewrite <- !app_assoc. cbn [app]. unfold p_call.
    set (r1 := TSym ")" :: tf ++ tn ++ tw ++ rest).
    assert (OE : orders_end r1) by (repeat split; reflexivity).
    destruct (Or_after en ob tob r1 O OE) as [C Lv].
    assert (X : eat_sym "." (tob ++ r1) = None /\ no_args_ahead (tob ++ r1) = true /\ star_ahead (tob ++ r1) = None).
    { destruct (or_first _ _ _ O) as [[_ ->]|(_ & x & ->)]; [|repeat split; reflexivity]. cbn [app]. unfold r1.
      repeat split; try reflexivity. destruct (tf ++ tn ++ tw ++ rest) as [|[] ?]; reflexivity. }
    destruct X as (X1 & X2 & X3).
    destruct (Ar_read en l ta m (tob ++ r1) A ltac:(lia) Lv C X1 X2 X3) as [-> ->].
    cbn [bind]. rewrite (or_read _ _ _ O) by (auto; lia). cbn [bind]. unfold r1.
    rewrite eat_sym_same. cbn [need bind].
    destruct (null_read en tr tn w tw rest Tr Wi Ht L) as [N1 N2].
    rewrite F1 by (auto; lia). cbn [bind]. rewrite N1.
    rewrite (ov_read _ _ _ Wi) by (auto; lia). cbn [bind].
    change (match ob with [] => None | _ => Some (Ok ob) end) with (given ob).
    change (match w with None => None | Some x => Some (Ok x) end) with (giveno w).
    rewrite (v_call_read en n f l ob fi0 fi w tr); auto.
Qed.
Lemma call_star en t n f r ts fi tf w tw :
  call_word t n -> names_to_functions en (upper n) = Some f -> star r ts -> Fl en fi tf -> Ov en w tw ->
  f <> FFromUnixtime -> (tf <> [] -> is_aggregate f = true) -> typed (NFunc f [NStar r unknown] (mkFopts [] fi w false)) ->
  Ex en 9 (NFunc f [NStar r unknown] (mkFopts [] fi w false)) (t :: paren ts ++ tf ++ tw).
Proof.
  intros W R S F Wi Hu Hag T. destruct (Fl_read en fi tf F) as (fi0 & Hd & He & F1). destruct (call_first t n W) as [Sh P].
  apply mk_head; [apply Sh; unfold paren; reflexivity | exact T |].
  intros m rest Hm L. unfold paren in *. cbn [app length] in *. rewrite !app_length in Hm. cbn [length] in Hm.
  apply P. rewrite <- !app_assoc. cbn [app]. unfold p_call.
  assert (St : star_ahead (ts ++ TSym ")" :: tf ++ tw ++ rest) = Some (Ok (NStar r unknown), tf ++ tw ++ rest)).
  { destruct S; reflexivity. }
  rewrite St.
  destruct (null_read en None [] w tw rest tr_none Wi ltac:(congruence) L) as [_ N2]. cbn [app] in N2.
  rewrite F1 by (auto; rewrite ?app_length in *; lia). cbn [bind].
  rewrite (ov_read _ _ _ Wi) by (auto; rewrite ?app_length in *; lia). cbn [bind].
  change (match w with None => None | Some x => Some (Ok x) end) with (giveno w).
  assert (A : arranged f [NStar r unknown] = [NStar r unknown]) by (destruct f; reflexivity).
  pose proof (v_call_read en n f [NStar r unknown] [] fi0 fi w None R) as V. rewrite A in V.
  cbn [given ignores] in V. rewrite V; auto; congruence.
Qed.

(** * The operator || *)
Lemma Ex_concat en cl cr l tl r tr :
  Ex en cl l tl -> Ex en cr r tr -> 5 <= cl -> 6 <= cr -> typed (NFunc FConcatenate [l; r] no_fopts) ->
  Ex en 5 (NFunc FConcatenate [l; r] no_fopts) (tl ++ TSym "||" :: tr).
Proof.
  intros El Er Hl Hr T.
  apply mk_value; [lia | | exact T |].
  - apply (placed_app en cl); [apply El | apply El | lia | lia |]. reflexivity.
  - intros n lvl rest Hn Hlv Hrest. rewrite app_length in Hn. cbn [length] in Hn.
    rewrite <- app_assoc. cbn [app].
    destruct (ex_value _ _ _ _ El ltac:(lia) n lvl (TSym "||" :: tr ++ rest)) as (k & Hk & ->).
    + lia.
    + unfold vlvl in *. lia.
    + change (5 <= Nat.min cl 7). lia.
    + destruct k as [|k]; [lia|]. cbn [value_loop]. change (vop_sym "||") with (Some (1, VConcat)). cbn iota.
      assert (Nat.leb lvl 1 = true) as -> by (apply Nat.leb_le; unfold vlvl in Hlv; lia).
      rewrite (ex_value_at en cr r tr); [|exact Er|lia|lia|unfold vlvl; lia|lia|lia].
      cbn [bind]. exists k. split; [cbn [length] in Hk; rewrite app_length in Hk; lia|].
      cbn [v_vop]. unfold v_concat. cbn [bind]. rewrite (typed_mk _ T). reflexivity.
Qed.

(** * Forms that start with a keyword which may be a name *)
Lemma shape_word c k x ts :
  starter (K k) = true -> k <> "NOT" -> mem k ["SELECT"; "WITH"; "TABLE"; "VALUES"] = false ->
  second (K k :: ts) = true -> start c (TKw k x :: ts).
Proof.
  intros S N Q T. split; [|intro; exact Q]. constructor; auto. intros _. cbn [first_not].
  destruct (String.eqb_spec k "NOT"); [congruence | reflexivity].
Qed.
Lemma soft_head en pe pv pq k x r v rest :
  p_keyword en pe pv pq k x r = None -> p_soft en pe pv k r = Ok (v, rest) ->
  prim_head en pe pv pq (TKw k x :: r) = Ok (v, rest).
Proof. intros A B. cbn [prim_head]. now rewrite A, B. Qed.
Lemma Array_some en t l tss :
  word "ARRAY" t -> Exs en l tss -> l <> [] -> typed (NArray l) ->
  Ex en 9 (NArray l) (t :: TSym "[" :: commas tss ++ [TSym "]"]).
Proof.
  intros [x ->] H N T. apply mk_head; [apply shape_word; (reflexivity || discriminate) | exact T |].
  intros n rest Hn L. cbn [length] in Hn. rewrite app_length in Hn. cbn [length] in Hn.
  cbn [app]. rewrite <- app_assoc. cbn [app].
  pose proof (Exs_shapes _ _ _ H) as F. pose proof (Exs_nonempty _ _ _ H N) as N'.
  assert (Q : eat_sym "]" (commas tss ++ TSym "]" :: rest) = None).
  { destruct F as [|ts tss' Sh F]; [congruence|].
    destruct (commas_first ts tss' (TSym "]" :: rest)) as (q & -> & _). now apply not_sym. }
  apply soft_head; [reflexivity|].
  unfold p_soft. cbn [String.eqb Ascii.eqb Bool.eqb]. rewrite eat_sym_same. cbn [need bind]. rewrite Q.
  rewrite (exs_read en l tss) by (auto; lia). cbn [bind]. rewrite eat_sym_same. cbn [need bind].
  now rewrite (typed_mk _ T).
Qed.
Lemma Row_word en t l tss :
  word "ROW" t -> Exs en l tss -> l <> [] -> typed (NRow l) -> Ex en 9 (NRow l) (t :: paren (commas tss)).
Proof.
  intros [x ->] H N T. apply mk_head; [apply shape_word; (reflexivity || discriminate) | exact T |].
  intros n rest Hn L. unfold paren in *. cbn [length] in Hn. rewrite app_length in Hn. cbn [length] in Hn.
  cbn [app]. rewrite <- app_assoc. cbn [app]. apply soft_head; [reflexivity|].
  unfold p_soft. cbn [String.eqb Ascii.eqb Bool.eqb]. rewrite eat_sym_same. cbn [need bind].
  rewrite (exs_read en l tss) by (auto; lia). cbn [bind]. rewrite eat_sym_same. cbn [need bind].
  now rewrite (typed_mk _ T).
Qed.
Lemma cast_read en n (try_ : bool) c e ts t tt rest :
  Ex en c e ts -> wf_type t = true -> type_text t tt -> typed (NCast try_ e t) -> 8 * length ts + 4 <= n ->
  p_cast (p_bool en n 0) try_ (paren (ts ++ K "AS" :: tt) ++ rest) = Ok (Ok (NCast try_ e t), rest).
Proof.
  intros E W S T Hn.
  assert (X : exists low, tt = type_toks low t /\ (low = true -> interval_free t = true)).
  { destruct S; [exists false | exists true]; now split. }
  destruct X as (low & -> & I).
  unfold p_cast, paren. cbn [app]. rewrite eat_sym_same. cbn [need bind].
  rewrite <- !app_assoc. cbn [app]. rewrite (ex_rd en c e ts n E) by (auto; reflexivity).
  cbn [bind]. rewrite eat_kw_same. cbn [need bind].
  rewrite (p_type_ok low t W); [| unfold type_fuel; rewrite app_length; lia | reflexivity].
  cbn [bind]. rewrite eat_sym_same. cbn [need bind]. unfold v_cast. cbn [bind].
  rewrite (visit_type_ok low t W I). cbn [bind]. rewrite canon_raw_of.
  now rewrite (typed_mk _ T).
Qed.
Lemma Cast_text en c e ts t tt :
  Ex en c e ts -> wf_type t = true -> type_text t tt -> typed (NCast false e t) ->
  Ex en 9 (NCast false e t) (K "CAST" :: paren (ts ++ K "AS" :: tt)).
Proof.
  intros E W S T. apply mk_head; [apply shape_kw; (reflexivity || discriminate) | exact T |].
  intros n rest Hn L. unfold paren in Hn. cbn [length] in Hn. rewrite !app_length in Hn. cbn [length] in Hn.
  exact (cast_read en n false c e ts t tt rest E W S T ltac:(lia)).
Qed.
Lemma Trycast_text en u c e ts t tt :
  word "TRY_CAST" u -> Ex en c e ts -> wf_type t = true -> type_text t tt -> typed (NCast true e t) ->
  Ex en 9 (NCast true e t) (u :: paren (ts ++ K "AS" :: tt)).
Proof.
  intros [x ->] E W S T. apply mk_head; [apply shape_word; (reflexivity || discriminate) | exact T |].
  intros n rest Hn L. unfold paren in Hn. cbn [length] in Hn. rewrite !app_length in Hn. cbn [length] in Hn.
  cbn [app]. apply soft_head; [reflexivity|].
  exact (cast_read en n true c e ts t tt rest E W S T ltac:(lia)).
Qed.
Lemma Ex_interval en t m tm s u f g tg :
  word "INTERVAL" t -> sign m tm -> field_word u f -> upto g tg ->
  typed (NInterval (signed_text m (strip squote s)) f g) ->
  Ex en 9 (NInterval (signed_text m (strip squote s)) f g) (t :: tm ++ TString s :: u :: tg).
Proof.
  intros [x ->] S U G T. apply mk_head; [| exact T |].
  - apply shape_word; try (reflexivity || discriminate). destruct S; reflexivity.
  - intros n rest Hn L. cbn [app]. apply soft_head; [reflexivity|].
    unfold p_soft. cbn [String.eqb Ascii.eqb Bool.eqb]. unfold p_interval.
    assert (H : match eat_sym "-" ((tm ++ TString s :: u :: tg) ++ rest) with
                | Some r => (true, r)
                | None => match eat_sym "+" ((tm ++ TString s :: u :: tg) ++ rest) with
                          | Some r => (false, r) | None => (false, (tm ++ TString s :: u :: tg) ++ rest) end
                end = (m, TString s :: u :: tg ++ rest)) by (destruct S; reflexivity).
    rewrite H. cbn [p_string].
    assert (I : forall u f r, field_word u f -> p_interval_field (u :: r) = Ok (f, r)).
    { intros u' f' r (k & -> & M). cbn [p_interval_field]. now rewrite M. }
    rewrite (I u f _ U). cbn [bind].
    assert (V : forall g, typed (NInterval (signed_text m (strip squote s)) f g) ->
      v_interval m (Ok (strip squote s)) f g = Ok (NInterval (signed_text m (strip squote s)) f g)).
    { intros g' T'. unfold v_interval. cbn [bind]. exact (typed_mk _ T'). }
    destruct G as [|t' u' f' W U']; cbn [app].
    + rewrite (lev_no_kw rest "TO") by (auto; reflexivity). now rewrite V.
    + rewrite (eat_word _ _ _ W), (I u' f' _ U'). cbn [bind]. now rewrite V.
Qed.
Lemma Ex_normalize en c e te tf :
  Ex en c e te -> 5 <= c ->
  (tf = [] \/ exists k x, mem k norm_forms = true /\ tf = [TSym ","; TKw k x]) ->
  typed (NNormalize e None) ->
  Ex en 9 (NNormalize e None) (K "NORMALIZE" :: paren (te ++ tf)).
Proof.
  intros E Hc F T. apply mk_head; [apply shape_kw; (reflexivity || discriminate) | exact T |].
  intros n rest Hn L. unfold paren in *. cbn [length] in Hn. rewrite !app_length in Hn. cbn [length] in Hn.
  change (p_normalize (p_value en n 0) (TSym "(" :: ((te ++ tf) ++ [TSym ")"]) ++ rest) = Ok (Ok (NNormalize e None), rest)).
  unfold p_normalize. rewrite eat_sym_same. cbn [need bind]. rewrite <- !app_assoc. cbn [app].
  rewrite (ex_value_at en c e te); [| exact E | exact Hc | lia | unfold vlvl; lia | |].
  2,3: destruct F as [->|(k & x & _ & ->)]; cbn [app lev]; change (sym_lev ")") with 0; change (sym_lev ",") with 0; lia.
  cbn [bind]. destruct F as [->|(k & x & M & ->)]; cbn [app].
  - change (eat_sym "," (TSym ")" :: rest)) with (@None (list token)). cbn iota. cbn [bind].
    rewrite eat_sym_same. cbn [need bind]. now rewrite (typed_mk _ T).
  - rewrite eat_sym_same. unfold norm_forms in M. rewrite M. cbn [bind].
    rewrite eat_sym_same. cbn [need bind]. now rewrite (typed_mk _ T).
Qed.
(** CURRENT_TIME and the like with a precision. *)
Lemma datetime_head en f n ts : is_datetime f = true ->
  prim_head en (p_bool en n 0) (p_value en n 0) (p_query en n) (K (fn_name f) :: ts) = p_datetime en (fn_name f) ts.
Proof. intro D. destruct f; try discriminate D; reflexivity. Qed.
Lemma datetime_value en f o : is_datetime f = true -> names_to_functions en (fn_name f) = Some f ->
  v_datetime en (fn_name f) o = mk (NDateTime f (match o with None => 3%Z | Some p => p end)).
Proof. intros D R. unfold v_datetime. rewrite names_upper, R. destruct f; try discriminate D; reflexivity. Qed.
Lemma datetime_shape f ts : is_datetime f = true -> second (K (fn_name f) :: ts) = true -> start 9 (K (fn_name f) :: ts).
Proof. intros D H. apply shape_kw; auto; destruct f; try discriminate D; (reflexivity || discriminate). Qed.
Lemma Datetime_plain en f :
  is_datetime f = true -> names_to_functions en (fn_name f) = Some f -> typed (NDateTime f 3) ->
  Ex en 9 (NDateTime f 3) [K (fn_name f)].
Proof.
  intros D R T. apply mk_head; [now apply datetime_shape | exact T |].
  intros n rest _ L. cbn [app]. rewrite datetime_head, p_datetime_none, datetime_value by assumption. cbn iota.
  now rewrite (typed_mk _ T).
Qed.
Lemma Datetime_precise en f d :
  is_datetime f = true -> names_to_functions en (fn_name f) = Some f ->
  typed (NDateTime f (Z.of_N (N_of_str d))) ->
  Ex en 9 (NDateTime f (Z.of_N (N_of_str d))) [K (fn_name f); TSym "("; TInt d; TSym ")"].
Proof.
  intros D R T. apply mk_head; [now apply datetime_shape | exact T |].
  intros n rest _ L. cbn [app]. rewrite datetime_head by assumption.
  change (p_datetime en (fn_name f) (TSym "(" :: TInt d :: TSym ")" :: rest))
    with (Ok (v_datetime en (fn_name f) (Some (Z.of_N (N_of_str d))), rest) : vres).
  rewrite datetime_value by assumption. cbn iota. now rewrite (typed_mk _ T).
Qed.

(** * Numbers *)
Lemma digits_val s : forall acc, digits acc s = val_acc acc s.
Proof. induction s as [|c s IH]; intro acc; [reflexivity|]. cbn [digits val_acc]. apply IH. Qed.
Lemma int_type_ok z : infer_integral z = int_type z.
Proof.
  unfold infer_integral, int_type. change (- 2 ^ 31)%Z with (-2147483648)%Z. change (2 ^ 31)%Z with 2147483648%Z.
  destruct (Z.leb_spec (-2147483648) z), (Z.leb_spec z 2147483647), (Z.ltb_spec z 2147483648); try reflexivity; lia.
Qed.
Lemma typed_int z : typed (NLit (LInt z) (int_type z)).
Proof. unfold int_type. destruct (_ && _)%bool; eexists; reflexivity. Qed.
Lemma Ex_integer en s : let z := Z.of_N (digits 0 s) in Ex en 9 (NLit (LInt z) (int_type z)) [TInt s].
Proof.
  intro z. apply Ex_number; [reflexivity| |apply typed_int]. cbn [v_number]. unfold z. rewrite digits_val.
  unfold N_of_str. rewrite int_type_ok, (typed_mk _ (typed_int _)). reflexivity.
Qed.
Lemma Ex_minus_integer en s :
  let z := (- Z.of_N (digits 0 s))%Z in Ex en 9 (NLit (LInt z) (int_type z)) [TSym "-"; TInt s].
Proof.
  intro z. apply Ex_negative; [reflexivity| |apply typed_int]. cbn [v_number]. unfold z. rewrite digits_val.
  unfold N_of_str. rewrite int_type_ok, (typed_mk _ (typed_int _)). reflexivity.
Qed.
Lemma decimal_read a b : str_forall is_digit a = true ->
  dec_of_text (a ++ String "."%char b) = decimal_of false a b.
Proof. intro D. unfold dec_of_text. rewrite digits_split by assumption. unfold decimal_of. now rewrite digits_val. Qed.
Lemma Ex_decimal en a b t : str_forall is_digit a = true ->
  infer_decimal (decimal_of false a b) = Ok t -> typed (NLit (LDec (decimal_of false a b)) t) ->
  Ex en 9 (NLit (LDec (decimal_of false a b)) t) [TDec (a ++ String "."%char b)].
Proof.
  intros D H T. apply Ex_number; [reflexivity| |exact T]. cbn [v_number]. rewrite decimal_read by assumption.
  rewrite H. cbn [bind]. now rewrite (typed_mk _ T).
Qed.
Lemma str_of_N_short n : (n <> 0)%N -> (n < 10 ^ 28)%N -> String.length (str_of_N n) <= 28.
Proof.
  intros N B. destruct (str_of_N_spec n) as (_ & _ & _ & H & _). specialize (H N).
  assert (L : (10 ^ N.of_nat (String.length (str_of_N n) - 1) < 10 ^ 28)%N) by lia.
  apply N.pow_lt_mono_r_iff in L; lia.
Qed.
Lemma Ex_minus_decimal en a b t : str_forall is_digit a = true ->
  infer_decimal (decimal_of false a b) = Ok t ->
  (digits 0 (a ++ b) <> 0)%N -> (digits 0 (a ++ b) < 10 ^ 28)%N ->
  typed (NLit (LDec (decimal_of true a b)) t) ->
  Ex en 9 (NLit (LDec (decimal_of true a b)) t) [TSym "-"; TDec (a ++ String "."%char b)].
Proof.
  intros D H N B T. apply Ex_negative; [reflexivity| |exact T]. cbn [v_number]. rewrite decimal_read by assumption.
  rewrite H. cbn [bind].
  assert (dec_neg (decimal_of false a b) = decimal_of true a b) as ->.
  { unfold dec_neg, round_ctx, decimal_of. cbn [dcoef dneg dexp]. destruct (N.eqb_spec (digits 0 (a ++ b)) 0); [contradiction|].
    cbn [negb]. assert (Nat.leb (String.length (str_of_N (digits 0 (a ++ b)))) ctx_prec = true) as ->; [|reflexivity].
    apply Nat.leb_le. unfold ctx_prec. now apply str_of_N_short. }
  now rewrite (typed_mk _ T).
Qed.

(** * Type constructors *)
Lemma Typector_any en t n s :
  ctor_tok t n -> typed (NTypeCtor (strip squote s) (upper n)) ->
  Ex en 9 (NTypeCtor (strip squote s) (upper n)) [t; TString s].
Proof.
  intros Ht T. apply mk_head; [| exact T |].
  - destruct Ht as [->|(k & -> & Hk)]; [now apply shape_tok|].
    unfold mem, ctor_words in Hk. cbn [existsb] in Hk. rewrite !orb_true_iff, !String.eqb_eq in Hk.
    destruct Hk as [->|[->|[->|[->|[->|[->|Hk]]]]]]; try discriminate; (split; [constructor|]; reflexivity).
  - intros m rest _ _. cbn [app].
    assert (G : forall t, t = TId n \/ (exists k, t = TKw k n /\ mem k non_reserved = true) ->
              p_name_first en (p_bool en m 0) (p_value en m 0) (t :: TString s :: rest) = Ok (Ok (NTypeCtor (strip squote s) (upper n)), rest)).
    { intros t' Ht'. unfold p_name_first.
      assert (p_ident (t' :: TString s :: rest) = Ok (IdUnquoted n, TString s :: rest)) as ->.
      { destruct Ht' as [->|(k & -> & Hk)]; [reflexivity|]. cbn [p_ident]. now rewrite Hk. }
      cbn [bind]. change (measure_ahead (TString s :: rest)) with false. cbn iota.
      unfold p_ident_first. cbn [p_string]. unfold v_type_ctor. cbn [bind visit_ident].
      rewrite (typed_mk _ T). reflexivity. }
    destruct Ht as [->|(k & -> & Hk)]; [apply G; now left|].
    specialize (G (TKw k n)).
    unfold mem, ctor_words in Hk. cbn [existsb] in Hk. rewrite !orb_true_iff, !String.eqb_eq in Hk.
    destruct Hk as [->|[->|[->|[->|[->|[->|Hk]]]]]]; try discriminate;
      (apply G; right; eexists; split; [reflexivity | reflexivity]).
Qed.

(** * LISTAGG *)
Lemma overflow_read o ts r : overflow o ts -> eat_kw "ON" r = None ->
  match eat_kw "ON" (ts ++ r) with
  | Some r3 => let* r4 := need (eat_kw "OVERFLOW" r3) in
               let* (o, r5) := p_overflow r4 in Ok (Some o, r5)
  | None => Ok (None, ts ++ r)
  end = Ok (match ts with [] => None | _ => Some (Ok o) end, r).
Proof.
  intros O N. destruct O as [|u v [x ->] [y ->]|u v f tf c tc w [x ->] [y ->] F C [z ->]]; cbn [app].
  - now rewrite N.
  - reflexivity.
  - destruct F as [|s], C as [t [a ->]|t [a ->]]; reflexivity.
Qed.
Lemma Listagg_text en q v tv sp tsp ov tov u l tss :
  quantifier q -> Exo en v tv -> separator sp tsp -> overflow ov tov -> word "WITHIN" u ->
  Forall2 (Sr en) l tss -> l <> [] -> typed (NListAgg v sp ov l) ->
  Ex en 9 (NListAgg v sp ov l)
     (K "LISTAGG" :: paren (q ++ tv ++ tsp ++ tov)
      ++ u :: K "GROUP" :: paren (K "ORDER" :: K "BY" :: commas tss)).
Proof.
  intros Q [c E] Sp Ov [x ->] Hl N T. apply mk_head; [| exact T |].
  - apply shape_kw; try reflexivity; discriminate.
  - intros n rest Hn L. unfold paren in *. cbn [app length] in *. rewrite !app_length in Hn. cbn [length] in Hn.
    repeat (rewrite !app_length in Hn; cbn [length] in Hn).
    rewrite <- !app_assoc. cbn [app].
    match goal with |- prim_head _ _ _ _ (_ :: TSym "(" :: ?r) = _ =>
      change (p_listagg (p_bool en n 0) r = Ok (Ok (NListAgg v sp ov l), rest)) end.
    unfold p_listagg.
    assert (Hq : exists t, forall r, p_quant (q ++ tv ++ r) = (t, tv ++ r)).
    { destruct Q as [->|(t & [[y ->]|[y ->]] & ->)]; cbn [app].
      - exists None. intro r. apply quant_none. apply (shape_weak c); [apply E | lia | lia].
      - exists (Some y). reflexivity.
      - exists (Some y). intro r. cbn [p_quant String.eqb Ascii.eqb Bool.eqb]. now rewrite (Ex_starts en c v tv r E). }
    destruct Hq as (tq & Hq). rewrite Hq.
    rewrite (ex_rd en c v tv n E); [|lia|].
    2:{ destruct Sp; [|reflexivity]. destruct Ov; reflexivity. }
    cbn [bind].
    set (tail := TSym ")" :: TKw "WITHIN" x :: K "GROUP" :: TSym "(" :: K "ORDER" :: K "BY" :: (commas tss ++ [TSym ")"]) ++ rest).
    assert (Hs : match eat_sym "," (tsp ++ tov ++ tail) with
      | Some r2 => match p_string r2 with
                   | Some (s, r3) => Ok (Some s, r3)
                   | None => Err SyntaxErr
                   end
      | None => Ok (None, tsp ++ tov ++ tail)
      end = Ok (match tsp with [] => None | _ => Some (Ok sp) end, tov ++ tail)).
    { destruct Sp as [|s]; [|reflexivity]. destruct Ov; reflexivity. }
    rewrite Hs. cbn [bind]. clear Hs.
    rewrite (overflow_read ov tov tail Ov eq_refl).
    cbn [bind]. unfold tail. rewrite eat_sym_same. cbn [need bind].
    rewrite (eat_word "WITHIN" (TKw "WITHIN" x)) by (now exists x). cbn [need bind].
    rewrite eat_kw_same. cbn [need bind].
    rewrite eat_sym_same. cbn [need bind]. rewrite <- app_assoc. cbn [app].
    pose proof (or_read _ _ _ (Or_some en l tss Hl N) n (TSym ")" :: rest)) as P. cbn [app length] in P. rewrite P; [| lia | repeat split].
    cbn [bind]. destruct l as [|o l]; [congruence|]. rewrite eat_sym_same. cbn [need bind].
    unfold v_listagg. destruct Sp, Ov; cbn [seq_opt bind]; now rewrite (typed_mk _ T).
Qed.
