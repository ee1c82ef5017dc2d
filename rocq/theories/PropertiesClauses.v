(** Property theorems C22 to C26: the clauses of a query. *)
From Coq Require Import String Ascii List Bool ZArith NArith Arith Lia.
From Verif Require Import PyStr StrFacts Printer PrinterFacts Types Inference Lexer LexFacts ReadsFacts TypeParser Functions Ast Sql
  Tokens SqlReads Parser ParseParts ParseExpr ParsePrim ParseForms ParseRel ParseQuery Good GoodFacts ParseMain ParseWhole TextFacts SmallTrees
  PropertiesLiterals PropertiesRoundTrip ClauseFacts JoinTrees.
Import ListNotations.
Open Scope nat_scope.
Open Scope string_scope.

(** * C22: order and presence of the clauses *)

(** A keyword with its body, when there is one. *)
Definition clause (k body : string) : string := match body with "" => k | _ => k ++ " " ++ body end.
Definition clauses (l : list (string * option string)) : string :=
  join " " (concat (map (fun kv => match snd kv with None => [] | Some b => [clause (fst kv) b] end) l)).
(** The body of a list clause: nothing if the list is empty. *)
Definition listed {A} (f : list A -> string) (l : list A) : option string :=
  match l with [] => None | _ => Some (f l) end.
(** The body of OFFSET and LIMIT. *)
Definition counted (c : option Z) : option string :=
  match c with None => None | Some z => if (z =? 0)%Z then None else Some (str_of_Z z) end.

(** The text of any SELECT query without line breaks, given the texts [s] of its
    parts. *)
Theorem C22_clause_order : forall sel fr wh gb hv d ws wi ob off lim o,
  is_pretty o = false ->
  let s := fun x => sql x o in
  sql (NSelect sel fr wh gb hv d ws (mkQ wi ob off lim)) o
  = clauses
      [("WITH", listed (fun l => join "," (map (named_query_sql s o) l)) wi);
       ("SELECT", Some ((if d then "DISTINCT " else "") ++ join "," (map s sel)));
       ("FROM", option_map (fun r => if is_query r then pad ("(" ++ s r ++ ")") 1 else s r) fr);
       ("WHERE", option_map s wh);
       ("GROUP", option_map (fun g => "BY " ++ groupby_sql s o g) gb);
       ("HAVING", option_map s hv);
       ("WINDOW", listed (fun l => join "," (map (fun nw => fst nw ++ " AS (" ++ window_sql s o (snd nw) ++ ")") l)) ws);
       ("ORDER", listed (fun l => "BY " ++ join "," (map (order_sql s) l)) ob);
       ("OFFSET", counted off);
       ("LIMIT", counted lim)].
Proof.
  intros sel fr wh gb hv d ws wi ob off lim o P s. unfold sql.
  change (sql_n false (NSelect sel fr wh gb hv d ws (mkQ wi ob off lim)) o)
    with (stmt_to_string o true
        (with_entries s o (mkQ wi ob off lim)
         ++ [("SELECT", distinct_prefix d (join_stmts (map s sel) o))]
         ++ opt_entry "FROM"
              (fun r => if is_query r then pad (parenthesize (s r)) 1 else s r) fr
         ++ opt_entry "WHERE" s wh
         ++ opt_entry "GROUP" (fun g => "BY " ++ groupby_sql s o g)%string gb
         ++ opt_entry "HAVING" s hv
         ++ match ws with
            | [] => []
            | _ => [("WINDOW", join_stmts (map (fun nw => let '(n, w) := nw in
                       (n ++ " AS " ++ parenthesize (window_sql s o w))%string) ws) o)]
            end
         ++ constraint_entries s o (mkQ wi ob off lim))%list).
  rewrite stmt_default by exact P.
  assert (J : forall l, join_stmts l o = join "," l).
  { intro l. unfold join_stmts, join_stmts_d. now apply join_core_default. }
  rewrite (map_ext _ (fun kv => clause (fst kv) (snd kv))) by (intros [k [|x v]]; reflexivity).
  unfold clauses. f_equal. cbn [map concat fst snd]. rewrite !map_app.
  unfold constraint_entries. rewrite !map_app.
  f_equal; [unfold with_entries; cbn [q_with]; destruct wi; [reflexivity|]; rewrite J; reflexivity|].
  f_equal; [rewrite J; now destruct d|].
  f_equal; [now destruct fr|]. f_equal; [now destruct wh|]. f_equal; [now destruct gb|]. f_equal; [now destruct hv|].
  f_equal.
  { destruct ws as [|[n w] ws]; [reflexivity|]. rewrite J. cbn [map listed fst snd]. unfold clause.
    rewrite (map_ext (fun nw : string * window node => let '(n0, w0) := nw in n0 ++ " AS " ++ parenthesize (window_sql s o w0))
                     (fun nw => fst nw ++ " AS (" ++ window_sql s o (snd nw) ++ ")"))
      by (intros [m v]; reflexivity).
    reflexivity. }
  f_equal; [destruct ob; [reflexivity|]; rewrite J; reflexivity|].
  f_equal; [destruct off as [[]|]; reflexivity|]. rewrite app_nil_r. destruct lim as [[]|]; reflexivity.
Qed.
Print Assumptions C22_clause_order.

(** The same for the tokens, in every layout ([toks x] are the tokens of the
    printed part [x], C19). *)
Definition part {A} (k : list token) (f : A -> list token) (x : option A) : list token :=
  match x with None => [] | Some a => (k ++ f a)%list end.
Definition given {A} (l : list A) : option (list A) := match l with [] => None | _ => Some l end.
Definition nonzero (c : option Z) : option Z :=
  match c with None => None | Some z => if (z =? 0)%Z then None else Some z end.
Theorem C22_clause_tokens : forall sel fr wh gb hv d ws wi ob off lim o,
  let q := NSelect sel fr wh gb hv d ws (mkQ wi ob off lim) in
  lexable q ->
  lex (sql q o)
  = (part [K "WITH"] (fun l => commas (map (named_toks toks) l)) (given wi)
     ++ K "SELECT" :: (if d then [K "DISTINCT"] else []) ++ commas (map toks sel)
     ++ part [K "FROM"] (fun r => if is_query r then paren (toks r) else toks r) fr
     ++ part [K "WHERE"] toks wh
     ++ part [K "GROUP"; K "BY"] (groupby_toks toks) gb
     ++ part [K "HAVING"] toks hv
     ++ part [K "WINDOW"] (fun l => commas (map (fun nw => word_token (fst nw) :: K "AS" ::
                                                   paren (window_toks toks (snd nw))) l)) (given ws)
     ++ part [K "ORDER"; K "BY"] (fun l => commas (map (order_toks toks) l)) (given ob)
     ++ part [K "OFFSET"] int_toks (nonzero off)
     ++ part [K "LIMIT"] int_toks (nonzero lim))%list.
Proof.
  intros sel fr wh gb hv d ws wi ob off lim o q L. rewrite lex_sql by exact L. subst q. clear L.
  change (toks (NSelect sel fr wh gb hv d ws (mkQ wi ob off lim)))
    with (with_toks toks (mkQ wi ob off lim)
      ++ K "SELECT" :: (if d then [K "DISTINCT"] else []) ++ commas (map toks sel)
      ++ opt_toks [K "FROM"] (fun r => rel_toks false r (toks r)) fr
      ++ opt_toks [K "WHERE"] toks wh
      ++ opt_toks [K "GROUP"; K "BY"] (groupby_toks toks) gb
      ++ opt_toks [K "HAVING"] toks hv
      ++ (match ws with
          | [] => []
          | _ => K "WINDOW" :: commas (map (fun nw => let '(n, w) := nw in
                                         word_token n :: K "AS" :: paren (window_toks toks w)) ws)
          end)
      ++ constraint_toks toks (mkQ wi ob off lim))%list.
  f_equal; [now destruct wi|]. f_equal. f_equal. f_equal.
  f_equal; [destruct fr as [r|]; [|reflexivity]; cbn [opt_toks part]; unfold rel_toks; cbn [andb]; rewrite orb_false_r; reflexivity|].
  f_equal. f_equal. f_equal. f_equal.
  - destruct ws as [|nw ws]; [reflexivity|]. cbn [given part app]. f_equal. f_equal.
    apply map_ext. now intros [n w].
  - cbn [constraint_toks]. f_equal; [now destruct ob|]. f_equal; [now destruct off as [[]|] | now destruct lim as [[]|]].
Qed.
Print Assumptions C22_clause_tokens.
(** "Exactly when given" fails for a count of zero: the query prints as if it
    had not been given, whatever the query. *)
Theorem C22_zero_dropped : forall sel fr wh gb hv d ws wi ob off lim o,
  sql (NSelect sel fr wh gb hv d ws (mkQ wi ob (Some 0%Z) lim)) o
  = sql (NSelect sel fr wh gb hv d ws (mkQ wi ob None lim)) o
  /\ sql (NSelect sel fr wh gb hv d ws (mkQ wi ob off (Some 0%Z))) o
     = sql (NSelect sel fr wh gb hv d ws (mkQ wi ob off None)) o.
Proof. split; reflexivity. Qed.
Print Assumptions C22_zero_dropped.
Theorem C22_limit_zero_refuted :
  exists q s, q = star_query (Some (NTable "t" None None)) None [] (mkQ [] [] None (Some 0%Z))
    /\ to_sql default_opts q = Ok s /\ s = "SELECT * FROM ""t"""
    /\ query_from_sql bare_env s = Ok (star_query (Some (NTable "t" None None)) None [] no_qattrs).
Proof. eexists _, _. each_part. Qed.
Print Assumptions C22_limit_zero_refuted.
Local Definition a := column "a".
Local Definition b := column "b".
Local Definition int (z : Z) : node := NLit (LInt z) (infer_integral z).
Local Definition tbl (n : string) : node := NTable n None None.
Example C22_case :
  sql (NSelect [a; b] (Some (tbl "t")) (Some (NBin BGt a b)) (Some (mkG [GSet [a]] false)) None true []
         (mkQ [NAliasedRel (NTableQuery (tbl "u") no_qattrs) "c" []] [mkOrder a true false] (Some 5%Z) (Some 10%Z)))
      default_opts
  = "WITH ""c"" AS (TABLE ""u"") SELECT DISTINCT ""a"",""b"" FROM ""t"" WHERE ""a"" > ""b"" GROUP BY ""a"" ORDER BY ""a"" DESC OFFSET 5 LIMIT 10".
Proof. vm_compute. reflexivity. Qed.

(** * C23: tables *)
Theorem C23_table_round_trip : forall en n sc ca o,
  name_ok n -> opt_name sc -> opt_name ca -> qualified sc ca -> ospaces o < 80 ->
  let t := NTable n sc ca in
  (exists s, to_sql o (NTableQuery t no_qattrs) = Ok s /\ query_from_sql en s = Ok (NTableQuery t no_qattrs))
  /\ (exists s, to_sql o (star_query (Some t) None [] no_qattrs) = Ok s
        /\ query_from_sql en s = Ok (star_query (Some t) None [] no_qattrs)).
Proof.
  intros en n sc ca o Hn Hs Hc Q Ho t.
  pose proof (table_fine en n sc ca Hn Hs Hc Q) as F. split.
  - assert (FF : fine en (NTableQuery t no_qattrs)) by (apply table_query_fine; [exact F | exact I | intros ? []]).
    destruct FF. now apply round_query.
  - assert (FF : fine en (star_query (Some t) None [] no_qattrs)).
    { apply star_query_fine; [split; [exact F | reflexivity] | exact I | | intros ? []].
      constructor; [reflexivity | reflexivity | intros ? []]. }
    destruct FF. now apply round_query.
Qed.
Print Assumptions C23_table_round_trip.
(** Which tables can be built: [s] counts as missing when it is empty. *)
Definition missing (x : option string) : Prop := x = None \/ x = Some "".
Theorem C23_buildable : forall n sc ca,
  (missing ca \/ ~ missing sc -> check (NTable n sc ca) = Ok None)
  /\ (~ missing ca /\ missing sc -> check (NTable n sc ca) = Err AssertionError).
Proof.
  intros n sc ca. cbn [check].
  assert (T : forall x, truthy x = true <-> ~ missing x).
  { intros [[|c s]|]; unfold missing; split; try discriminate; try reflexivity;
      try (intro H; exfalso; apply H; now auto); intros _ [H|H]; discriminate H. }
  assert (F : forall x, truthy x = false <-> missing x).
  { intros [[|c s]|]; unfold missing; split; try discriminate; try reflexivity; auto; intros [H|H]; discriminate H. }
  split.
  - intros [H|H].
    + apply F in H. now rewrite H.
    + apply T in H. rewrite H, orb_true_r. reflexivity.
  - intros [H1 H2]. apply T in H1. apply F in H2. now rewrite H1, H2.
Qed.
Print Assumptions C23_buildable.
(** Its text, in every layout: the given parts in the order catalog, schema,
    name, in double quotes and separated by dots. *)
Definition quoted (n : string) : string := """" ++ n ++ """".
Theorem C23_table_text : forall n sc ca o,
  sql (NTable n sc ca) o
  = (match ca with None => "" | Some c => quoted c ++ "." end)
    ++ (match sc with None => "" | Some s => quoted s ++ "." end) ++ quoted n.
Proof.
  intros n [s|] [c|] o; unfold quoted; cbn; rewrite ?sapp_assoc; reflexivity.
Qed.
Print Assumptions C23_table_text.
Example C23_case :
  sql (NTable "t x" (Some "s") (Some "c""""d")) default_opts = """c""""d"".""s"".""t x"""
  /\ query_from_sql bare_env "SELECT * FROM ""c""""d"".""s"".""t x"""
     = Ok (star_query (Some (NTable "t x" (Some "s") (Some "c""""d"))) None [] no_qattrs)
  /\ query_from_sql bare_env "TABLE c.t" = Ok (NTableQuery (NTable "t" (Some "c") None) no_qattrs).
Proof. each_part. Qed.

(** * C24: orderings *)
Theorem C24_order_round_trip : forall en n ob o,
  name_ok n -> orders_fine en ob -> ospaces o < 80 ->
  let q := NTableQuery (tbl n) (mkQ [] ob None None) in
  exists s, to_sql o q = Ok s /\ query_from_sql en s = Ok q.
Proof.
  intros en n ob o Hn Hb Ho q.
  assert (F : fine en q).
  { apply table_query_fine; [|exact I | exact Hb]. apply table_fine; [exact Hn | exact I | exact I | congruence]. }
  destruct F. now apply round_query.
Qed.
Print Assumptions C24_order_round_trip.
(** Nothing is printed for ascending order and nulls last. *)
Theorem C24_order_text : forall t v (desc nulls_first : bool),
  sql (NTableQuery t (mkQ [] [mkOrder v desc nulls_first] None None)) default_opts
  = clauses [("TABLE", Some (sql t default_opts));
             ("ORDER", Some ("BY " ++ sql v default_opts ++ (if desc then " DESC" else "")
                             ++ (if nulls_first then " NULLS FIRST" else "")))].
Proof.
  intros t v d n. unfold sql.
  change (sql_n false (NTableQuery t (mkQ [] [mkOrder v d n] None None)) default_opts)
    with (stmt_to_string default_opts true
            [("TABLE", sql t default_opts);
             ("ORDER", "BY " ++ join_stmts [order_sql (fun x => sql x default_opts) (mkOrder v d n)] default_opts)]).
  rewrite stmt_default by reflexivity.
  unfold join_stmts, join_stmts_d. rewrite join_core_default by reflexivity.
  unfold clauses. cbn [map concat fst snd order_sql join append]. unfold clause. cbn [app].
  fold (sql v default_opts). fold (sql t default_opts).
  destruct (sql t default_opts); reflexivity.
Qed.
Print Assumptions C24_order_text.
(** Every way to write an ordering term is read as the term it denotes: the
    defaults may be written out.  ([p_sort] is the rule sortItem with its
    visitor; [rest] is what follows.) *)
Theorem C24_spellings : forall en v n dir nulls rest,
  fine_expr en v -> 8 * length (toks v) + 4 <= n -> sort_end rest ->
  In dir [[]; [K "ASC"]; [K "DESC"]] -> In nulls [[]; [K "NULLS"; K "LAST"]; [K "NULLS"; K "FIRST"]] ->
  exists desc nulls_first,
    p_sort (p_bool en n 0) (toks v ++ dir ++ nulls ++ rest)%list = Ok (Ok (mkOrder v desc nulls_first), rest)
    /\ (desc = true <-> dir = [K "DESC"]) /\ (nulls_first = true <-> nulls = [K "NULLS"; K "FIRST"]).
Proof.
  intros en v n dir nulls rest F Hn (L & A & D & N) Hd Hu.
  assert (X : Exo en v (toks v)).
  { destruct F as [[_ G] E]. pose proof (rb_expr _ _ _ (main _ _ _ G) E) as X.
    rewrite (Unvar.unvar_same en [] v G) in X by auto. now exists (cat v). }
  pose proof (Exo_Rd en v (toks v) n X Hn) as R. unfold p_sort.
  rewrite R.
  2:{ cbn [In] in Hd, Hu. destruct Hd as [<-|[<-|[<-|[]]]]; try reflexivity.
      destruct Hu as [<-|[<-|[<-|[]]]]; try reflexivity. exact L. }
  cbn [bind]. cbn [In] in Hd, Hu.
  destruct Hd as [<-|[<-|[<-|[]]]], Hu as [<-|[<-|[<-|[]]]]; cbn; rewrite ?A, ?D, ?N; cbn; rewrite ?N;
    eexists _, _; (split; [reflexivity|]); split; split; (reflexivity || discriminate || congruence).
Qed.
Print Assumptions C24_spellings.
Example C24_case :
  to_sql default_opts (NTableQuery (tbl "t") (mkQ [] [mkOrder a false false; mkOrder b true true] None None))
  = Ok "TABLE ""t"" ORDER BY ""a"",""b"" DESC NULLS FIRST"
  /\ query_from_sql bare_env "TABLE t ORDER BY ""a"" ASC NULLS LAST,""b"" DESC NULLS FIRST"
     = Ok (NTableQuery (tbl "t") (mkQ [] [mkOrder a false false; mkOrder b true true] None None)).
Proof. each_part. Qed.

(** * C25: grouping and windows *)
Theorem C25_grouping_round_trip : forall en n g o,
  name_ok n -> groupby_fine en g -> ospaces o < 80 ->
  let q := star_query (Some (tbl n)) (Some g) [] no_qattrs in
  exists s, to_sql o q = Ok s /\ query_from_sql en s = Ok q.
Proof.
  intros en n g o Hn Hg Ho q.
  assert (F : fine en q).
  { apply star_query_fine; [split; [|reflexivity] | exact Hg | | intros ? []].
    - apply table_fine; [exact Hn | exact I | exact I | congruence].
    - constructor; [reflexivity | reflexivity | intros ? []]. }
  destruct F. now apply round_query.
Qed.
Print Assumptions C25_grouping_round_trip.
(** Without any condition on the shape: groupings over columns. *)
Theorem C25_grouping_columns : forall en n g o,
  name_ok n -> g_groups g <> [] -> forallb group_built (g_groups g) = true ->
  (forall x, In x (groupby_kids g) -> exists c, x = column c /\ name_ok c) -> ospaces o < 80 ->
  let q := star_query (Some (tbl n)) (Some g) [] no_qattrs in
  exists s, to_sql o q = Ok s /\ query_from_sql en s = Ok q.
Proof.
  intros en n g o Hn N B C Ho. apply C25_grouping_round_trip; auto.
  assert (S : forall l : list node, (forall x, In x l -> exists c, x = column c) -> set_good l = true).
  { intros l H. unfold set_good. apply andb_true_iff. split.
    - apply forallb_forall. intros x Hx. now destruct (H x Hx) as [c ->].
    - destruct l as [|x [|y l]]; try reflexivity. now destruct (H x (or_introl eq_refl)) as [c ->]. }
  assert (X : forall l : list node, (forall x, In x l -> exists c, x = column c) -> forallb is_expr l = true).
  { intros l H. apply forallb_forall. intros x Hx. now destruct (H x Hx) as [c ->]. }
  destruct g as [gs d]. cbn [g_groups groupby_kids] in *. constructor; auto.
  - cbn [g_groups]. apply forallb_forall. intros h Hh.
    assert (H : forall x, In x (group_kids h) -> exists c, x = column c).
    { intros x Hx. destruct (C x) as (c & -> & _); [|eauto]. apply in_concat. exists (group_kids h).
      split; [now apply in_map | exact Hx]. }
    destruct h as [l|ll|l|l]; cbn [group_good group_kids] in *; auto.
    apply forallb_forall. intros l Hl. apply S. intros x Hx. apply H, in_concat. eauto.
  - intros x Hx. destruct (C x Hx) as (c & -> & Hc).
    split; [exact (arith_lexable (AColumn c) Hc) | exact (arith_good en (AColumn c) Hc)].
Qed.
Print Assumptions C25_grouping_columns.
Theorem C25_window_round_trip : forall en n ws o,
  name_ok n -> windows_fine en ws -> ospaces o < 80 ->
  let q := star_query (Some (tbl n)) None ws no_qattrs in
  exists s, to_sql o q = Ok s /\ query_from_sql en s = Ok q.
Proof.
  intros en n ws o Hn Hw Ho q.
  assert (F : fine en q).
  { apply star_query_fine; [split; [|reflexivity] | exact I | exact Hw | intros ? []].
    apply table_fine; [exact Hn | exact I | exact I | congruence]. }
  destruct F. now apply round_query.
Qed.
Print Assumptions C25_window_round_trip.
Local Definition g : groupby node := mkG [GSet [a]; GSet [a; b]; GSet []; GRollup [b; a]; GSets [[]; [a; b]; [b]]; GCube [b]] true.
Local Definition w : window node :=
  mkWindow (Some "base") [mkOrder b true true; mkOrder a false false] [a; b] FTGroups
           (BBounded false (int 3)) (BBounded true (NBin BAdd a (int 1))).
Example C25_case :
  (forall x, In x (groupby_kids g) -> exists c, x = column c /\ name_ok c)
  /\ windows_fine bare_env [("v1", w); ("v2", default_window)]
  /\ to_sql default_opts (star_query (Some (tbl "t")) (Some g) [] no_qattrs)
     = Ok "SELECT * FROM ""t"" GROUP BY DISTINCT ""a"",(""a"",""b""),(),ROLLUP (""b"",""a""),GROUPING SETS ((),(""a"",""b""),""b""),CUBE (""b"")"
  /\ to_sql default_opts (star_query (Some (tbl "t")) None [("v1", w)] no_qattrs)
     = Ok "SELECT * FROM ""t"" WINDOW v1 AS (base PARTITION BY ""a"",""b"" ORDER BY ""b"" DESC NULLS FIRST,""a"" GROUPS BETWEEN 3 PRECEDING AND ""a"" + 1 FOLLOWING)".
Proof.
  split.
  { assert (N : forall c, In c ["a"; "b"] -> name_ok c).
    { intros c [<-|[<-|[]]].
      - split; [apply paired_doubled; reflexivity|]. split; [apply inner_iff; reflexivity | reflexivity].
      - split; [apply paired_doubled; reflexivity|]. split; [apply inner_iff; reflexivity | reflexivity]. }
    intros x Hx. assert (O : x = a \/ x = b) by (cbn in Hx; intuition (subst; auto)).
    destruct O as [-> | ->]; eexists; (split; [reflexivity|]); apply N; cbn; auto. }
  split.
  { constructor; [reflexivity | reflexivity|].
    assert (E : forall x, In x [a; b; int 3; NBin BAdd a (int 1)] -> fine_expr bare_env x).
    { intros x Hx. split.
      - split; [apply (lexable_dec 3) | apply (good_dec bare_env 3)];
          cbn [In] in Hx; repeat (destruct Hx as [<-|Hx]; [vm_compute; reflexivity|]); destruct Hx.
      - cbn [In] in Hx; repeat (destruct Hx as [<-|Hx]; [reflexivity|]); destruct Hx. }
    intros nw [<-|[<-|[]]]; (constructor; [reflexivity|]); intros x Hx; apply E; cbn in Hx |- *; intuition. }
  each_part.
Qed.
(** A single grouped expression is printed bare; if its text is in parentheses
    they are read as those of the list, so that a row becomes its elements. *)
Theorem C25_row_refuted :
  exists q s, q = star_query (Some (tbl "t")) (Some (mkG [GSet [NRow [a; b]]] false)) [] no_qattrs
    /\ to_sql default_opts q = Ok s
    /\ query_from_sql bare_env s = Ok (star_query (Some (tbl "t")) (Some (mkG [GSet [a; b]] false)) [] no_qattrs).
Proof. eexists _, _. each_part. Qed.
Print Assumptions C25_row_refuted.

(** * C26: join trees *)
Definition from_joins (t : jtree) : node := star_query (Some (jtree_node t)) None [] no_qattrs.
Lemma from_joins_fine en t : jtree_names t -> jtree_shape t -> fine en (from_joins t).
Proof.
  intros N S. apply star_query_fine; [split; [now apply jtree_fine | apply jtree_rel] | exact I | | intros ? []].
  constructor; [reflexivity | reflexivity | intros ? []].
Qed.
Theorem C26_join_round_trip : forall en t o,
  jtree_names t -> jtree_shape t -> ospaces o < 80 ->
  exists s, to_sql o (from_joins t) = Ok s /\ query_from_sql en s = Ok (from_joins t).
Proof. intros en t o N S Ho. destruct (from_joins_fine en t N S). now apply round_query. Qed.
Print Assumptions C26_join_round_trip.
(** What every join tree is read back as, whatever its shape: a join without
    criterion keeps only the leftmost table of its right side, the rest of the
    right side moves above it ([reread], JoinTrees.v). *)
Theorem C26_any_shape : forall en t o,
  jtree_names t -> ospaces o < 80 ->
  exists s, to_sql o (from_joins t) = Ok s /\ query_from_sql en s = Ok (from_joins (reread t)).
Proof.
  intros en t o N Ho.
  assert (L : lexable (from_joins t)).
  { constructor; [reflexivity|]. intros x [<-|[<-|[]]]; [apply (star_fine en) | now apply jtree_lexable]. }
  assert (P : printable (from_joins t) = Ok tt).
  { assert (P : forall t, jtree_names t -> printable (jtree_node t) = Ok tt).
    { clear. induction t as [n|k l IHl r IHr c|k l IHl r IHr c cs|k l IHl r IHr|l IHl r IHr]; cbn [jtree_names jtree_node printable].
      - reflexivity.
      - intros (A & B & C). rewrite IHl, IHr by assumption. cbn [bind opt_ok jcrit_ok].
        exact (good_printable bare_env [] _ (cond_good bare_env c C)).
      - intros (A & B & C). rewrite IHl, IHr by assumption. reflexivity.
      - intros (A & B). rewrite IHl, IHr by assumption. reflexivity.
      - intros (A & B). rewrite IHl, IHr by assumption. reflexivity. }
    change (printable (from_joins t)) with (let* _ := printable (jtree_node t) in Ok tt). now rewrite P. }
  exists (sql (from_joins t) o). split.
  - unfold to_sql. rewrite P. assert ((ospaces o <? 80)%nat = true) as -> by (apply Nat.ltb_lt; exact Ho). reflexivity.
  - unfold query_from_sql. rewrite lex_sql by exact L.
    assert (T : forall t, toks (from_joins t) = ([K "SELECT"; TSym "*"; K "FROM"] ++ toks (jtree_node t))%list).
    { intro u. change (toks (from_joins u))
        with ([K "SELECT"; TSym "*"; K "FROM"] ++ rel_toks false (jtree_node u) (toks (jtree_node u)) ++ [])%list.
      unfold rel_toks. rewrite jtree_not_query. cbn [andb orb]. now rewrite app_nil_r. }
    rewrite T, <- reread_toks, <- T.
    destruct (from_joins_fine en (reread t) (reread_names t N) (reread_shape t)) as [_ G].
    pose proof (query_tokens en _ [] G eq_refl eq_refl) as R. now rewrite app_nil_r in R.
Qed.
Print Assumptions C26_any_shape.
Theorem C26_same_iff : forall t, reread t = t <-> jtree_shape t.
Proof. intro t. split; [intros <-; apply reread_shape | apply reread_same]. Qed.
Print Assumptions C26_same_iff.
(** The tables stay in order. *)
Theorem C26_tables_kept : forall t, tables (reread t) = tables t.
Proof.
  assert (H : forall f p t, (forall n, tables (f (JTTable n)) = (p ++ [n])%list) -> tables (hang f t) = (p ++ tables t)%list).
  { intros f p t H. induction t; cbn [hang tables]; [apply H|..]; rewrite IHt1, app_assoc; reflexivity. }
  induction t; cbn [reread tables]; [reflexivity| | | |].
  - now rewrite IHt1, IHt2.
  - now rewrite IHt1, IHt2.
  - rewrite (H _ (tables t1)), IHt2; [reflexivity|]. intro n. cbn [tables]. now rewrite IHt1.
  - rewrite (H _ (tables t1)), IHt2; [reflexivity|]. intro n. cbn [tables]. now rewrite IHt1.
Qed.
Print Assumptions C26_tables_kept.
Local Definition on (x y : string) : cond := CCompare OEq (AColumn x) (AColumn y).
Local Definition joins : jtree :=
  JTCross (JTOn KLeft (JTTable "a") (JTUsing KInner (JTTable "b") (JTNatural KFull (JTTable "c") (JTTable "d")) "k" ["l"])
                (CAnd (on "x" "y") (CNot (CIsNull (AColumn "z")))))
          (JTTable "e").
Example C26_case :
  jtree_names joins /\ jtree_shape joins
  /\ to_sql default_opts (from_joins joins)
     = Ok "SELECT * FROM ""a"" LEFT JOIN ""b"" INNER JOIN ""c"" NATURAL FULL OUTER JOIN ""d"" USING (k,l) ON ""x"" = ""y"" AND ""z"" IS NOT NULL CROSS JOIN ""e""".
Proof.
  split; [|split; [cbn; tauto | vm_compute; reflexivity]].
  assert (N : forall c, In c ["a"; "b"; "c"; "d"; "e"; "x"; "y"; "z"] -> name_ok c).
  { intros c Hc. split; [apply paired_doubled|split; [apply inner_iff|]];
      cbn [In] in Hc; repeat (destruct Hc as [<-|Hc]; [reflexivity|]); destruct Hc. }
  cbn [jtree_names joins cond_names on arith_names].
  repeat match goal with |- _ /\ _ => split end; try (apply N; cbn; tauto); exact I || reflexivity.
Qed.
Theorem C26_cross_refuted :
  exists t s, t = JTCross (JTTable "a") (JTOn KInner (JTTable "b") (JTTable "c") (on "x" "y"))
    /\ to_sql default_opts (from_joins t) = Ok s
    /\ query_from_sql bare_env s
       = Ok (from_joins (JTOn KInner (JTCross (JTTable "a") (JTTable "b")) (JTTable "c") (on "x" "y"))).
Proof. eexists _, _. each_part. Qed.
Print Assumptions C26_cross_refuted.
