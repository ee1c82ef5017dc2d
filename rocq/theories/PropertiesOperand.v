(** Property theorems C61: a query that serves as an operand is printed without
    parentheses, and such a text is not read as that operand. *)
From Coq Require Import String Ascii List Bool ZArith NArith Arith Lia.
From Verif Require Import PyStr StrFacts Printer PrinterFacts Types Inference Lexer LexFacts TypeParser Functions Ast Sql
  Tokens ReadsFacts SqlReads Parser TypeRoundTrip ParseBase ParseParts ParseExpr ParsePrim ParseForms ParseRel ParseQuery Good
  Unvar ParseMain ParseWhole GoodFacts TextFacts PropertiesLiterals ClauseFacts PropertiesLost.
Import ListNotations.
Open Scope nat_scope.
Open Scope string_scope.

(** * No expression starts with the first word of a query *)
Lemma query_primary en n ts : starts_query ts = true -> p_primary en (S n) ts = Err SyntaxErr.
Proof.
  intro H. destruct (starts_query_cases _ H) as (k & x & r & -> & Hk).
  change (p_primary en (S n) (TKw k x :: r))
    with (prim_body en (p_bool en n 0) (p_value en n 0) (p_query en n) (TKw k x :: r)).
  destruct Hk as [->|[->|[->| ->]]]; reflexivity.
Qed.
Lemma query_value en n lvl ts : starts_query ts = true -> p_value en (S (S n)) lvl ts = Err SyntaxErr.
Proof.
  intro H. change (p_value en (S (S n)) lvl ts)
    with (value_body (p_value en (S n)) (p_primary en (S n)) lvl ts).
  pose proof (query_primary en n _ H) as P. destruct (starts_query_cases _ H) as (k & x & r & -> & _).
  unfold value_body. rewrite P. reflexivity.
Qed.
Lemma query_bool en n lvl ts : starts_query ts = true -> p_bool en (S (S (S n))) lvl ts = Err SyntaxErr.
Proof.
  intro H. change (p_bool en (S (S (S n))) lvl ts)
    with (bool_body (p_bool en (S (S n))) (p_value en (S (S n)) 0) (p_query en (S (S n))) lvl ts).
  pose proof (query_value en n 0 _ H) as P. unfold bool_body.
  assert (eat_kw "NOT" ts = None) as ->.
  { destruct (starts_query_cases _ H) as (k & x & r & -> & [->|[->|[->| ->]]]); reflexivity. }
  rewrite P. reflexivity.
Qed.
Lemma query_at en n lvl ts : starts_query ts = true -> 3 <= n -> p_bool en n lvl ts = Err SyntaxErr.
Proof. intros H Hn. do 3 (destruct n as [|n]; [lia|]). now apply query_bool. Qed.
Lemma query_value_at en n lvl ts : starts_query ts = true -> 2 <= n -> p_value en n lvl ts = Err SyntaxErr.
Proof. intros H Hn. do 2 (destruct n as [|n]; [lia|]). now apply query_value. Qed.

Theorem C61_no_expression : forall en s,
  starts_query (lex s) = true -> expression_from_sql en s = Err SyntaxErr.
Proof.
  intros en s H. unfold expression_from_sql, expression_of_tokens.
  rewrite query_at; [reflexivity | exact H | unfold parse_fuel; lia].
Qed.
Print Assumptions C61_no_expression.

(** * Texts that start with a query

    The first operand, however deep, is a query. *)
Inductive leads (en : env) : node -> Prop :=
| leads_query q : printable_query en q -> leads en q
| leads_bin op l r : leads en l -> needs_parens (binop_prec op) true l = false -> leads en (NBin op l r)
| leads_null v : leads en v -> needs_parens (Some 3) true v = false -> leads en (NUn UIsNull v)
| leads_between v a b : leads en v -> needs_parens (Some 3) true v = false -> leads en (NBetween v a b)
| leads_in v l : leads en v -> needs_parens (Some 3) true v = false -> leads en (NInList v l)
| leads_in_query v q : leads en v -> needs_parens (Some 3) true v = false -> leads en (NInQuery v q)
| leads_like v p e : leads en v -> needs_parens (Some 3) true v = false -> leads en (NLike v p e)
| leads_subscript v i : leads en v -> leads en (NSubscript v i)
| leads_aliased v a : leads en v -> leads en (NAliased v a).

Lemma starts_app a b : starts_query a = true -> starts_query (a ++ b)%list = true.
Proof. destruct a; [discriminate | exact (fun H => H)]. Qed.
Lemma leads_starts en e : leads en e -> starts_query (toks e) = true.
Proof.
  unfold toks.
  induction 1 as [q H|op l r _ IH P|v _ IH P|v a b _ IH P|v l _ IH P|v q _ IH P|v p e _ IH P|v i _ IH|v a _ IH].
  - exact (rq_first _ _ _ (printable_rq _ _ H)).
  - cbn [toks_n]. rewrite P. now apply starts_app.
  - cbn [toks_n]. rewrite P. now apply starts_app.
  - cbn [toks_n]. rewrite P. now apply starts_app.
  - cbn [toks_n]. rewrite P. now apply starts_app.
  - cbn [toks_n]. rewrite P. now apply starts_app.
  - cbn [toks_n]. rewrite P. now apply starts_app.
  - cbn [toks_n]. now apply starts_app.
  - cbn [toks_n]. now apply starts_app.
Qed.
(** A query as an operand never gets parentheses. *)
Lemma query_unwrapped cur left q : is_q q = true -> needs_parens cur left q = false.
Proof. destruct q; try discriminate; destruct cur, left; reflexivity. Qed.

Theorem C61_leading : forall en e o,
  lexable e -> leads en e -> expression_from_sql en (sql e o) = Err SyntaxErr.
Proof. intros en e o L H. apply C61_no_expression. rewrite (lex_sql _ o L). now apply (leads_starts en). Qed.
Print Assumptions C61_leading.

(** * A query on the right of an operator *)
Lemma right_value en p op s c l tl tq :
  vop_sym s = Some (p, op) -> Ex en c l tl -> p + 4 <= c -> starts_query tq = true ->
  expression_of_tokens en (tl ++ TSym s :: tq) = Err SyntaxErr.
Proof.
  intros Hs E Hc Hq. pose proof (vop_lev _ _ _ Hs) as [Hlev Hp]. unfold expression_of_tokens.
  set (ts := (tl ++ TSym s :: tq)%list).
  assert (F : exists n, parse_fuel ts = S (S n) /\ 8 * length tl + 3 <= n /\ 2 <= n).
  { exists (8 * length ts + 6). unfold parse_fuel. split; [lia|]. subst ts. rewrite app_length. cbn [length]. lia. }
  destruct F as (n & -> & Hn & Hn'). subst ts.
  change (p_bool en (S (S n)) 0 (tl ++ TSym s :: tq))
    with (bool_body (p_bool en (S n)) (p_value en (S n) 0) (p_query en (S n)) 0 (tl ++ TSym s :: tq)).
  unfold bool_body. pose proof (ex_shape _ _ _ _ E) as Sh.
  assert (eat_kw "NOT" (tl ++ TSym s :: tq) = None) as ->.
  { pose proof (sh_not _ _ Sh ltac:(lia)) as N. destruct tl as [|t tl]; [destruct (sh_first _ _ Sh)|].
    destruct t as [w| | | | | | | | | | | | ]; try reflexivity. cbn [app eat_kw first_not] in *.
    destruct (String.eqb w "NOT"); [discriminate | reflexivity]. }
  destruct (ex_value _ _ _ _ E ltac:(lia) n 0 (TSym s :: tq)) as (k & Hk & ->).
  - lia.
  - lia.
  - cbn [lev]. lia.
  - destruct k as [|k]; [lia|]. cbn [value_loop]. rewrite Hs. cbn [Nat.leb].
    rewrite query_value_at by assumption. reflexivity.
Qed.
Lemma right_logic en w need c l tl tq :
  (w = "AND" /\ need = 2) \/ (w = "OR" /\ need = 1) -> Ex en c l tl -> need <= c -> starts_query tq = true ->
  expression_of_tokens en (tl ++ K w :: tq) = Err SyntaxErr.
Proof.
  intros Hw E Hc Hq. unfold expression_of_tokens. set (ts := (tl ++ K w :: tq)%list).
  assert (F : exists n, parse_fuel ts = S n /\ 8 * length tl + 3 <= n /\ 3 <= n).
  { exists (8 * length ts + 7). unfold parse_fuel. split; [lia|]. subst ts. rewrite app_length. cbn [length]. lia. }
  destruct F as (n & -> & Hn & Hn'). subst ts.
  destruct (ex_bool _ _ _ _ E n 0 (K w :: tq)) as (k & Hk & ->).
  - exact Hn.
  - lia.
  - destruct Hw as [[-> ->]|[-> ->]].
    + change (lev (K "AND" :: tq)) with 2. lia.
    + change (lev (K "OR" :: tq)) with 1. lia.
  - destruct k as [|k]; [lia|]. unfold Tokens.K. cbn [bool_loop].
    destruct Hw as [[-> _]|[-> _]]; cbn [String.eqb Ascii.eqb Bool.eqb andb Nat.leb];
      rewrite query_at by assumption; reflexivity.
Qed.
Lemma right_pred en c l tl tail :
  Ex en c l tl -> 5 <= c -> lev tail <= 4 ->
  (forall n, 3 <= n -> predicate (p_bool en n 0) (p_value en n 0) (p_query en n) (Ok l) tail = Err SyntaxErr) ->
  expression_of_tokens en (tl ++ tail) = Err SyntaxErr.
Proof.
  intros E Hc L P. unfold expression_of_tokens. set (ts := (tl ++ tail)%list).
  assert (F : exists n, parse_fuel ts = S n /\ 8 * length tl + 3 <= n /\ 3 <= n).
  { exists (8 * length ts + 7). unfold parse_fuel. split; [lia|]. subst ts. rewrite app_length. lia. }
  destruct F as (n & -> & Hn & Hn'). subst ts.
  change (p_bool en (S n) 0 (tl ++ tail))
    with (bool_body (p_bool en n) (p_value en n 0) (p_query en n) 0 (tl ++ tail)).
  unfold bool_body. pose proof (ex_shape _ _ _ _ E) as Sh.
  assert (eat_kw "NOT" (tl ++ tail) = None) as ->.
  { pose proof (sh_not _ _ Sh ltac:(lia)) as N. destruct tl as [|t tl]; [destruct (sh_first _ _ Sh)|].
    destruct t as [w| | | | | | | | | | | | ]; try reflexivity. cbn [app eat_kw first_not] in *.
    destruct (String.eqb w "NOT"); [discriminate | reflexivity]. }
  rewrite (ex_rdv en c l tl n E Hc Hn tail L). cbn [bind]. rewrite P by exact Hn'. reflexivity.
Qed.
Lemma right_cmp en op s c l tl tq :
  cmp_text op = Some s -> Ex en c l tl -> 5 <= c -> starts_query tq = true ->
  expression_of_tokens en (tl ++ TSym s :: tq) = Err SyntaxErr.
Proof.
  intros Hs E Hc Hq. assert (C : cmp_sym s = Some (Ok op)).
  { destruct op; try discriminate; injection Hs as <-; reflexivity. }
  eapply right_pred; [exact E | exact Hc | cbn [lev]; rewrite (cmp_lev _ _ C); lia|].
  intros n Hn. unfold predicate. rewrite C. rewrite query_value_at by (assumption || lia). cbn [bind orelse].
  destruct (starts_query_cases _ Hq) as (k & x & r & -> & [->|[->|[->| ->]]]); reflexivity.
Qed.
Lemma right_distinct en c l tl tq :
  Ex en c l tl -> 5 <= c -> starts_query tq = true ->
  expression_of_tokens en (tl ++ K "IS" :: K "DISTINCT" :: K "FROM" :: tq) = Err SyntaxErr.
Proof.
  intros E Hc Hq. eapply right_pred; [exact E | exact Hc | cbn; lia |].
  intros n Hn. unfold predicate, Tokens.K. cbn [app String.eqb Ascii.eqb Bool.eqb eat_kw need bind].
  rewrite query_value_at by (assumption || lia). reflexivity.
Qed.

Theorem C61_right : forall en op l q o,
  fine_expr en l -> fits (fst (needs op)) (binop_prec op) true l = true -> printable_query en q ->
  expression_from_sql en (sql (NBin op l q) o) = Err SyntaxErr.
Proof.
  intros en op l q o [[L G] X] F Q.
  assert (Lb : lexable (NBin op l q)).
  { constructor; [reflexivity|]. intros x [<-|[<-|[]]]; [exact L | apply Q]. }
  assert (E0 : Ex en (cat l) l (toks l)).
  { pose proof (rb_expr _ _ _ (main _ _ _ G) X) as E. rewrite (unvar_same en [] l G) in E by auto. exact E. }
  destruct (operand en (fst (needs op)) _ _ l l ltac:(destruct op; cbn [needs fst]; lia) F E0) as (c & Hc & E).
  pose proof (rq_first _ _ _ (printable_rq _ _ Q)) as S. destruct Q as [_ Q].
  unfold expression_from_sql. rewrite (lex_sql _ o Lb).
  assert (T : toks (NBin op l q) = (ptoks (binop_prec op) true l ++ binop_toks false op ++ toks q)%list).
  { unfold toks. cbn [toks_n]. rewrite (query_unwrapped _ false _ Q). reflexivity. }
  rewrite T. clear T F. destruct op; cbn [binop_toks needs fst] in *; cbn [app].
  1-5: (eapply right_value; [cbn; reflexivity | exact E | lia | exact S]).
  1-6: match type of Lb with lexable (NBin ?op _ _) =>
         eapply (right_cmp en op); [reflexivity | exact E | lia | exact S] end.
  - eapply (right_logic en "AND" 2); [now left | exact E | lia | exact S].
  - eapply (right_logic en "OR" 1); [now right | exact E | lia | exact S].
  - eapply right_distinct; [exact E | lia | exact S].
Qed.
Print Assumptions C61_right.

(** * A query as the argument of a function *)
Lemma call_query en pe names ts : starts_query ts = true -> pe ts = Err SyntaxErr ->
  p_call en pe names ts = Err SyntaxErr.
Proof.
  intros H P. unfold p_call. destruct (starts_query_cases _ H) as (k & x & r & -> & Hk).
  assert (star_ahead (TKw k x :: r) = None) as -> by (destruct Hk as [->|[->|[->| ->]]]; reflexivity).
  assert (no_args_ahead (TKw k x :: r) = false) as -> by (destruct Hk as [->|[->|[->| ->]]]; reflexivity).
  assert (p_quant (TKw k x :: r) = (None, TKw k x :: r)) as -> by (destruct Hk as [->|[->|[->| ->]]]; reflexivity).
  unfold sep. cbn [p_sep]. rewrite P. reflexivity.
Qed.
Lemma fn_rejected f : callable f = true ->
  exists t, lex (fn_name f) = [t]
    /\ (forall r, eat_kw "NOT" (t :: r) = None) /\ match t with TSym _ => False | _ => True end
    /\ forall en pe pv pq r, p_call en pe [IdUnquoted (fn_name f)] r = Err SyntaxErr ->
         prim_head en pe pv pq (t :: TSym "(" :: r) = Err SyntaxErr.
Proof.
  destruct f; intro H; try discriminate H; clear H;
    (eexists; split; [vm_compute; reflexivity|]; split; [reflexivity|]; split; [exact I|];
     intros en pe pv pq r P;
       match type of P with p_call _ _ [IdUnquoted ?n] _ = _ =>
         let n' := eval vm_compute in n in change n with n' in P end;
       match type of P with ?a = _ =>
         transitivity (orelse a (fun _ => Err SyntaxErr));
         [reflexivity | rewrite P; reflexivity] end).
Qed.
Lemma commas_first a l : exists r, commas (a :: l) = (a ++ r)%list.
Proof. destruct l as [|y l]; cbn [commas]; [exists []; now rewrite app_nil_r | eexists; reflexivity]. Qed.

Theorem C61_argument : forall en f x args fo o,
  callable f = true -> lexable (NFunc f (x :: args) fo) -> leads en x ->
  expression_from_sql en (sql (NFunc f (x :: args) fo) o) = Err SyntaxErr.
Proof.
  intros en f x args fo o Cf L H. unfold expression_from_sql. rewrite (lex_sql _ o L).
  pose proof (leads_starts _ _ H) as S. unfold toks in *. cbn [toks_n].
  assert (fn_bare f = false) as -> by (unfold callable in Cf; now destruct (fn_bare f)).
  unfold call_toks. cbn [map].
  destruct (fn_rejected f Cf) as (t & -> & NN & NS & P). unfold paren. cbn [app].
  destruct (commas_first (toks_n false x) (map (toks_n false) args)) as (r & ->). rewrite <- !app_assoc.
  assert (S' : forall r, starts_query (toks_n false x ++ r) = true) by (intro; now apply starts_app).
  specialize (S' (r ++ orders_toks (toks_n false) (fo_orderby fo) ++ [TSym ")"] ++ fopts_toks (toks_n false) fo)%list).
  set (t2 := (toks_n false x ++ _)%list) in *. clearbody t2.
  unfold expression_of_tokens, parse_fuel.
  assert (F : exists n, 8 * length (t :: TSym "(" :: t2) + 8 = 3 + (3 + n)).
  { exists (8 * length (t :: TSym "(" :: t2) + 2). lia. }
  destruct F as (n & ->).
  assert (B : p_bool en (3 + n) 0 t2 = Err SyntaxErr) by (apply query_at; [exact S' | lia]).
  specialize (P en (p_bool en (3 + n) 0) (p_value en (3 + n) 0) (p_query en (3 + n)) t2 (call_query _ _ _ _ S' B)).
  change (p_bool en (3 + (3 + n)) 0 (t :: TSym "(" :: t2))
    with (bool_body (p_bool en (5 + n)) (value_body (p_value en (4 + n))
            (prim_body en (p_bool en (3 + n) 0) (p_value en (3 + n) 0) (p_query en (3 + n))) 0) (p_query en (5 + n)) 0
            (t :: TSym "(" :: t2)).
  unfold bool_body. rewrite NN. unfold value_body, prim_body.
  destruct t; try contradiction; rewrite P; reflexivity.
Qed.
Print Assumptions C61_argument.

(** * A query under CAST, and as the first item of a select list *)
Theorem C61_cast : forall en try_ e ty o,
  lexable (NCast try_ e ty) -> leads en e ->
  expression_from_sql en (sql (NCast try_ e ty) o) = Err SyntaxErr.
Proof.
  intros en try_ e ty o L H. unfold expression_from_sql. rewrite (lex_sql _ o L).
  pose proof (leads_starts _ _ H) as S. unfold toks in *. cbn [toks_n]. unfold paren.
  set (tail := K "AS" :: type_toks false ty).
  unfold expression_of_tokens, parse_fuel.
  assert (F : exists n, 8 * length (K (if try_ then "TRY_CAST" else "CAST") :: TSym "(" :: (toks_n false e ++ tail) ++ [TSym ")"]) + 8
                        = 3 + (3 + n)).
  { exists (8 * length (K (if try_ then "TRY_CAST" else "CAST") :: TSym "(" :: (toks_n false e ++ tail) ++ [TSym ")"]) + 2). lia. }
  destruct F as (n & ->). rewrite <- app_assoc. set (t2 := (toks_n false e ++ tail ++ [TSym ")"])%list).
  assert (S' : starts_query t2 = true) by now apply starts_app.
  assert (B : p_bool en (3 + n) 0 t2 = Err SyntaxErr) by (apply query_at; [exact S' | lia]).
  change (p_bool en (3 + (3 + n)) 0 (K (if try_ then "TRY_CAST" else "CAST") :: TSym "(" :: t2))
    with (bool_body (p_bool en (5 + n)) (value_body (p_value en (4 + n))
            (prim_body en (p_bool en (3 + n) 0) (p_value en (3 + n) 0) (p_query en (3 + n))) 0) (p_query en (5 + n)) 0
            (K (if try_ then "TRY_CAST" else "CAST") :: TSym "(" :: t2)).
  unfold bool_body, value_body, prim_body, Tokens.K.
  destruct try_; cbn [eat_kw String.eqb Ascii.eqb Bool.eqb prim_head]; unfold p_keyword;
    cbn [String.eqb Ascii.eqb Bool.eqb].
  2: unfold p_cast; rewrite eat_sym_same; cbn [need bind]; rewrite B; reflexivity.
  pose proof (call_query en _ [IdUnquoted "TRY_CAST"] t2 S' B) as C.
  assert (P : p_soft en (p_bool en (3 + n) 0) (p_value en (3 + n) 0) "TRY_CAST" (TSym "(" :: t2) = Err SyntaxErr).
  { change (p_cast (p_bool en (3 + n) 0) true (TSym "(" :: t2) = Err SyntaxErr). unfold p_cast.
    rewrite eat_sym_same. cbn [need bind]. rewrite B. reflexivity. }
  assert (N : p_name_first en (p_bool en (3 + n) 0) (p_value en (3 + n) 0) (TKw "TRY_CAST" "TRY_CAST" :: TSym "(" :: t2)
              = Err SyntaxErr).
  { transitivity (orelse (p_call en (p_bool en (3 + n) 0) [IdUnquoted "TRY_CAST"] t2) (fun _ => Err SyntaxErr));
      [reflexivity | rewrite C; reflexivity]. }
  rewrite P. cbn [orelse]. rewrite N. reflexivity.
Qed.
Print Assumptions C61_cast.

Theorem C61_item : forall en x sel fr wh gb hv d ws qa o,
  lexable (NSelect (x :: sel) fr wh gb hv d ws qa) -> q_with qa = [] -> leads en x ->
  query_from_sql en (sql (NSelect (x :: sel) fr wh gb hv d ws qa) o) = Err SyntaxErr.
Proof.
  intros en x sel fr wh gb hv d ws qa o L W H. unfold query_from_sql. rewrite (lex_sql _ o L).
  pose proof (leads_starts _ _ H) as S. unfold toks in *. cbn [toks_n map]. unfold with_toks. rewrite W.
  rewrite app_nil_l.
  destruct (commas_first (toks_n false x) (map (toks_n false) sel)) as (r & ->).
  set (tail := (opt_toks [K "FROM"] _ fr ++ _)%list). rewrite <- app_assoc.
  assert (S' : starts_query (toks_n false x ++ r ++ tail) = true) by now apply starts_app.
  set (t2 := (toks_n false x ++ r ++ tail)%list) in *.
  unfold query_of_tokens, parse_fuel.
  assert (F : exists n, 8 * length (K "SELECT" :: (if d then [K "DISTINCT"] else []) ++ t2) + 8 = 3 + (3 + n)).
  { exists (8 * length (K "SELECT" :: (if d then [K "DISTINCT"] else []) ++ t2) + 2). lia. }
  destruct F as (n & ->).
  assert (B : p_bool en (3 + n) 0 t2 = Err SyntaxErr) by (apply query_at; [exact S' | lia]).
  change (p_query en (3 + (3 + n)) (K "SELECT" :: (if d then [K "DISTINCT"] else []) ++ t2))
    with (query_body (qnw_body (term_body (p_term en (3 + n))
            (p_query_primary (p_bool en (3 + n) 0) (p_primary en (3 + n)) (p_relation en (3 + n)) (p_query_no_with en (3 + n))) 0)
            (p_bool en (4 + n) 0)) (p_query en (5 + n)) (K "SELECT" :: (if d then [K "DISTINCT"] else []) ++ t2)).
  assert (I : sep (p_select_item (p_bool en (3 + n) 0) (p_primary en (3 + n))) t2 = Err SyntaxErr).
  { unfold sep. cbn [p_sep]. unfold p_select_item.
    assert (eat_sym "*" t2 = None) as ->.
    { destruct (starts_query_cases _ S') as (k & y & r0 & -> & _). reflexivity. }
    rewrite B. reflexivity. }
  unfold query_body, qnw_body, term_body, Tokens.K. cbn [eat_kw String.eqb Ascii.eqb Bool.eqb p_query_primary].
  unfold p_select.
  assert (p_quant ((if d then [TKw "DISTINCT" "DISTINCT"] else []) ++ t2)
          = ((if d then Some "DISTINCT" else None), t2)) as ->.
  { destruct d; [reflexivity|]. cbn [app].
    destruct (starts_query_cases _ S') as (k & y & r0 & -> & [->|[->|[->| ->]]]); reflexivity. }
  rewrite I. reflexivity.
Qed.
Print Assumptions C61_item.

(** * Texts that are read as something else

    The whole list, query and values, is read as the columns of one query. *)
Definition plain_select (sel : list node) (d : bool) : node :=
  NSelect sel None None None None d [] no_qattrs.
Lemma merged_tokens sel d l : sel <> [] ->
  commas (map toks (plain_select sel d :: l)) = toks (plain_select (sel ++ l) d).
Proof.
  intro N. unfold plain_select, toks. cbn [map toks_n]. unfold with_toks, constraint_toks.
  cbn [q_with q_orderby q_offset q_limit no_qattrs opt_toks].
  rewrite !app_nil_r, !app_nil_l, map_app.
  assert (C : forall a b : list (list token), a <> [] ->
            commas (a ++ b) = (commas a ++ match b with [] => [] | _ => TSym "," :: commas b end)%list).
  { intros a b Na. induction a as [|x a IH]; [congruence|]. destruct a as [|y a].
    - destruct b as [|z b]; cbn [app commas]; [now rewrite app_nil_r|]. reflexivity.
    - specialize (IH ltac:(discriminate)). cbn [app] in *. rewrite !commas_cons. rewrite IH.
      now rewrite <- !app_assoc. }
  rewrite (C (map _ sel)) by (destruct sel; [congruence|discriminate]).
  change (?a :: map ?f l) with ([a] ++ map f l)%list. rewrite C by discriminate.
  unfold commas at 1. cbn [tjoin app]. now rewrite <- !app_assoc.
Qed.

Lemma in_list_tokens v l : toks (NInList v l) = (ptoks (Some 3) true v ++ K "IN" :: paren (commas (map toks l)))%list.
Proof. reflexivity. Qed.
Lemma in_query_tokens v q : toks (NInQuery v q) = (ptoks (Some 3) true v ++ K "IN" :: paren (toks q))%list.
Proof. reflexivity. Qed.
Lemma row_tokens l : toks (NRow l) = paren (commas (map toks l)).
Proof. reflexivity. Qed.

Theorem C61_in_list : forall en v sel d l o,
  sel <> [] -> fine en (NInQuery v (plain_select (sel ++ l) d)) ->
  lexable (NInList v (plain_select sel d :: l)) ->
  expression_from_sql en (sql (NInList v (plain_select sel d :: l)) o)
  = Ok (NInQuery v (plain_select (sel ++ l) d)).
Proof.
  intros en v sel d l o N [L G] L'. unfold expression_from_sql. rewrite (lex_sql _ o L').
  rewrite <- (expression_tokens en _ G eq_refl). f_equal.
  now rewrite in_list_tokens, in_query_tokens, merged_tokens.
Qed.
Print Assumptions C61_in_list.
Theorem C61_in_one : forall en v q o,
  fine en (NInQuery v q) ->
  expression_from_sql en (sql (NInList v [q]) o) = Ok (NInQuery v q).
Proof.
  intros en v q o [L G]. unfold expression_from_sql.
  assert (L' : lexable (NInList v [q])).
  { inversion L as [e _ K0 E]. subst e. constructor; [reflexivity|]. exact K0. }
  rewrite (lex_sql _ o L'). rewrite <- (expression_tokens en _ G eq_refl). reflexivity.
Qed.
Print Assumptions C61_in_one.
Lemma select_typed sel d t : check (plain_select sel d) = Ok t -> exists u, t = Some u.
Proof.
  unfold plain_select. cbn [check]. intro H.
  repeat match type of H with
         | bind ?m _ = Ok _ => destruct m; cbn [bind] in H; [|discriminate]
         end. injection H as <-. eauto.
Qed.
Theorem C61_row : forall en sel d l o,
  sel <> [] -> printable_query en (plain_select (sel ++ l) d) ->
  lexable (NRow (plain_select sel d :: l)) ->
  expression_from_sql en (sql (NRow (plain_select sel d :: l)) o) = Ok (plain_select (sel ++ l) d).
Proof.
  intros en sel d l o N Q L. unfold expression_from_sql. rewrite (lex_sql _ o L).
  rewrite row_tokens, merged_tokens by exact N.
  assert (E : Ex en 10 (plain_select (sel ++ l) d) (paren (toks (plain_select (sel ++ l) d)))).
  { apply Ex_scalar; [now apply printable_rq|]. destruct Q as [[_ G] _]. destruct (good_check _ _ _ G) as [t C].
    destruct (select_typed _ _ _ C) as (u & ->). exists u. rewrite C. reflexivity. }
  set (q := plain_select (sel ++ l) d) in *. unfold expression_of_tokens.
  pose proof (ex_rd en _ _ _ (parse_fuel (paren (toks q))) E) as R.
  specialize (R ltac:(unfold parse_fuel; lia) []). rewrite app_nil_r in R. rewrite R by reflexivity. reflexivity.
Qed.
Print Assumptions C61_row.

(** * Concrete cases *)
Local Definition sub1 : node := plain_select [column "a"] false.
Local Definition sub2 : node :=
  NSelect [column "a"] (Some (NTable "t" None None)) None None None true [] no_qattrs.
Local Lemma sub1_fine : printable_query bare_env sub1.
Proof. split; [split; [now apply (lexable_dec 5) | now apply (good_dec _ 5)] | reflexivity]. Qed.
Local Lemma sub2_fine : printable_query bare_env sub2.
Proof. split; [split; [now apply (lexable_dec 5) | now apply (good_dec _ 5)] | reflexivity]. Qed.

Example C61_leading_case :
  let e := NBin BAnd (NBetween (NBin BAdd sub2 (column "b")) (column "c") (column "d")) (column "e") in
  lexable e /\ leads bare_env e
  /\ sql e default_opts = "SELECT DISTINCT ""a"" FROM ""t"" + ""b"" BETWEEN ""c"" AND ""d"" AND ""e""".
Proof.
  cbv zeta. split; [now apply (lexable_dec 8)|]. split; [|vm_compute; reflexivity].
  apply leads_bin; [|reflexivity]. apply leads_between; [|reflexivity]. apply leads_bin; [|reflexivity].
  apply leads_query, sub2_fine.
Qed.
Example C61_right_case :
  fine_expr bare_env (NBin BMul (column "a") (column "b"))
  /\ fits (fst (needs BGt)) (binop_prec BGt) true (NBin BMul (column "a") (column "b")) = true
  /\ printable_query bare_env sub2
  /\ (exists t, check (NBin BGt (NBin BMul (column "a") (column "b")) sub2) = Ok t)
  /\ sql (NBin BGt (NBin BMul (column "a") (column "b")) sub2) default_opts
     = """a"" * ""b"" > SELECT DISTINCT ""a"" FROM ""t""".
Proof.
  split; [split; [split; [now apply (lexable_dec 5) | now apply (good_dec _ 5)] | reflexivity]|].
  split; [reflexivity|]. split; [exact sub2_fine|]. split; [eexists; vm_compute; reflexivity | vm_compute; reflexivity].
Qed.
Example C61_argument_case :
  callable FMax = true /\ lexable (NFunc FMax [sub1] no_fopts) /\ leads bare_env sub1
  /\ sql (NFunc FMax [sub1] no_fopts) default_opts = "MAX(SELECT ""a"")".
Proof.
  split; [reflexivity|]. split; [now apply (lexable_dec 5)|]. split; [apply leads_query, sub1_fine | vm_compute; reflexivity].
Qed.
Example C61_cast_case :
  lexable (NCast false sub1 (TSimple SBigint)) /\ leads bare_env sub1
  /\ sql (NCast false sub1 (TSimple SBigint)) default_opts = "CAST(SELECT ""a"" AS BIGINT)".
Proof. split; [now apply (lexable_dec 5)|]. split; [apply leads_query, sub1_fine | vm_compute; reflexivity]. Qed.
Example C61_item_case :
  let q := NSelect [NAliased sub2 "x"; column "b"] None None None None false [] no_qattrs in
  lexable q /\ leads bare_env (NAliased sub2 "x")
  /\ sql q default_opts = "SELECT SELECT DISTINCT ""a"" FROM ""t"" ""x"",""b""".
Proof.
  cbv zeta. split; [now apply (lexable_dec 6)|]. split; [apply leads_aliased, leads_query, sub2_fine | vm_compute; reflexivity].
Qed.
Example C61_in_list_case :
  fine bare_env (NInQuery (column "x") (plain_select ([column "a"] ++ [column "b"; column "c"]) false))
  /\ lexable (NInList (column "x") (plain_select [column "a"] false :: [column "b"; column "c"]))
  /\ sql (NInList (column "x") (plain_select [column "a"] false :: [column "b"; column "c"])) default_opts
     = """x"" IN (SELECT ""a"",""b"",""c"")".
Proof.
  split; [split; [now apply (lexable_dec 6) | now apply (good_dec _ 6)]|].
  split; [now apply (lexable_dec 6) | vm_compute; reflexivity].
Qed.
Example C61_in_one_case : fine bare_env (NInQuery (column "x") sub2).
Proof. split; [now apply (lexable_dec 6) | now apply (good_dec _ 6)]. Qed.
Example C61_row_case :
  printable_query bare_env (plain_select ([column "a"] ++ [column "b"]) false)
  /\ lexable (NRow (plain_select [column "a"] false :: [column "b"]))
  /\ sql (NRow (plain_select [column "a"] false :: [column "b"])) default_opts = "(SELECT ""a"",""b"")".
Proof.
  split; [split; [split; [now apply (lexable_dec 6) | now apply (good_dec _ 6)] | reflexivity]|].
  split; [now apply (lexable_dec 6) | vm_compute; reflexivity].
Qed.
