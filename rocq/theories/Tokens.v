(** Specification side of the expression and query round trips: the token
    sequence that the text of an object should consist of, written without any
    reference to layout, and the fragment for which the round trip is stated. *)
From Coq Require Import String Ascii List ZArith NArith Bool Arith.
From Verif Require Import PyStr Types Inference Lexer LexFacts TypeParser TypeRoundTrip
  Functions Ast Sql.
Import ListNotations.
Open Scope nat_scope.
Open Scope string_scope.
Open Scope list_scope.

(** * Texts *)

(** A word of the form of an unquoted identifier. *)
Definition wordy (n : string) : bool :=
  match n with
  | String c _ => ((is_letter c || Ascii.eqb c "_") && str_forall is_word n)%bool
  | "" => false
  end.
(** Quotes [q] only in doubled pairs, no line break. *)
Definition text_ok (q : ascii) (s : string) : bool :=
  (paired q s && negb (str_exists is_break s))%bool.
(** A decimal whose text has a dot and no exponent. *)
Definition dec_plain (d : dec) : bool :=
  ((dexp d <? 0)%Z && negb (has_char "E" (dec_str d)))%bool.

(** * Tokens *)

Definition K (k : string) : token := TKw k k.
Definition paren (ts : list token) : list token := TSym "(" :: ts ++ [TSym ")"].
Definition commas (l : list (list token)) : list token := tjoin [TSym ","] l.
Definition qid (n : string) : token := TQuoted (quote_identifier n).
Definition sid (n : string) : token := TString (quote_literal n).

Definition dec_toks (d : dec) : list token :=
  if dneg d then [TSym "-"; TDec (dec_str (mkDec false (dcoef d) (dexp d)))] else [TDec (dec_str d)].
Definition int_toks (z : Z) : list token :=
  if Z.ltb z 0 then [TSym "-"; Ztok (- z)] else [Ztok z].
Definition lit_toks (l : lit) : list token :=
  match l with
  | LNone => [K "NULL"]
  | LBool b => [K (if b then "TRUE" else "FALSE")]
  | LInt z => int_toks z
  | LDec d => dec_toks d
  | LStr s => [sid s]
  | LFloat _ => []
  end.

Definition chain_toks (l : list (option string)) : list token :=
  tjoin [TSym "."] (map (fun n => [qid n]) (drop_none l)).

Definition binop_toks (neg : bool) (op : binop) : list token :=
  match op with
  | BAdd => [TSym "+"] | BMinus => [TSym "-"] | BMul => [TSym "*"] | BDiv => [TSym "/"]
  | BMod => [TSym "%"]
  | BEq => [TSym (if neg then "<>" else "=")]
  | BNe => [TSym (if neg then "=" else "<>")]
  | BGt => [TSym ">"] | BGe => [TSym ">="] | BLt => [TSym "<"] | BLe => [TSym "<="]
  | BAnd => [K "AND"] | BOr => [K "OR"]
  | BDistinct => if neg then [K "IS"; K "NOT"; K "DISTINCT"; K "FROM"]
                 else [K "IS"; K "DISTINCT"; K "FROM"]
  end.

Definition order_toks {A} (f : A -> list token) (x : order A) : list token :=
  let 'mkOrder v d n := x in
  f v ++ (if d then [K "DESC"] else []) ++ (if n then [K "NULLS"; K "FIRST"] else []).
Definition orders_toks {A} (f : A -> list token) (l : list (order A)) : list token :=
  match l with
  | [] => []
  | _ => K "ORDER" :: K "BY" :: commas (map (order_toks f) l)
  end.
Definition bound_toks {A} (f : A -> list token) (b : bound A) : list token :=
  match b with
  | BBounded d v => f v ++ [K (bound_dir d)]
  | BUnbounded d => [K "UNBOUNDED"; K (bound_dir d)]
  | BCurrent => [K "CURRENT"; K "ROW"]
  end.
Definition window_toks {A} (f : A -> list token) (w : window A) : list token :=
  let 'mkWindow p ob ps fr st en := w in
  (match p with None | Some "" => [] | Some n => [word_token n] end)
  ++ (match ps with [] => [] | _ => K "PARTITION" :: K "BY" :: commas (map f ps) end)
  ++ orders_toks f ob
  ++ K (frame_text fr) :: K "BETWEEN" :: bound_toks f st ++ K "AND" :: bound_toks f en.
Definition filter_toks {A} (f : A -> list token) (x : option A) : list token :=
  match x with
  | None => []
  | Some v => K "FILTER" :: TSym "(" :: K "WHERE" :: f v ++ [TSym ")"]
  end.
Definition over_toks {A} (f : A -> list token) (x : option (window A)) : list token :=
  match x with
  | None => []
  | Some w => K "OVER" :: paren (window_toks f w)
  end.
Definition fopts_toks {A} (f : A -> list token) (x : fopts A) : list token :=
  let 'mkFopts _ fi wi ig := x in
  filter_toks f fi ++ (if ig then [K "IGNORE"; K "NULLS"] else []) ++ over_toks f wi.
Definition call_toks {A} (f : A -> list token) (name : string) (args : list A) (x : fopts A)
  : list token :=
  lex name ++ paren (commas (map f args) ++ orders_toks f (fo_orderby x)) ++ fopts_toks f x.

Definition set_toks {A} (f : A -> list token) (l : list A) : list token :=
  match l with
  | [v] => f v
  | _ => paren (commas (map f l))
  end.
Definition group_toks {A} (f : A -> list token) (g : group A) : list token :=
  match g with
  | GSet l => set_toks f l
  | GSets ll => K "GROUPING" :: K "SETS" :: paren (commas (map (set_toks f) ll))
  | GCube l => K "CUBE" :: paren (commas (map f l))
  | GRollup l => K "ROLLUP" :: paren (commas (map f l))
  end.
Definition groupby_toks {A} (f : A -> list token) (g : groupby A) : list token :=
  let 'mkG gs d := g in
  (if d then [K "DISTINCT"] else []) ++ commas (map (group_toks f) gs).

Definition rel_toks (joins : bool) (e : node) (ts : list token) : list token :=
  if (is_query e || (joins && is_join e))%bool then paren ts else ts.
Definition named_toks (f : node -> list token) (e : node) : list token :=
  match e with
  | NAliasedRel r a cols =>
      qid a :: commas (map (fun c => [word_token c]) cols) ++ K "AS" :: rel_toks false r (f r)
  | _ => []
  end.
Definition with_toks (f : node -> list token) (q : qattrs node) : list token :=
  match q_with q with
  | [] => []
  | ws => K "WITH" :: commas (map (named_toks f) ws)
  end.
Definition count_toks (k : string) (c : option Z) : list token :=
  match c with
  | None | Some 0%Z => []
  | Some z => K k :: int_toks z
  end.
Definition constraint_toks {A} (f : A -> list token) (q : qattrs A) : list token :=
  let 'mkQ _ ob off lim := q in
  orders_toks f ob ++ count_toks "OFFSET" off ++ count_toks "LIMIT" lim.
Definition opt_toks {A} (k : list token) (f : A -> list token) (x : option A) : list token :=
  match x with None => [] | Some a => k ++ f a end.
Definition join_toks (j : join_type) : list token :=
  match j with
  | JInner => [K "INNER"] | JLeft => [K "LEFT"] | JRight => [K "RIGHT"]
  | JOuter => [K "FULL"; K "OUTER"] | JCross => [K "CROSS"]
  end.
Definition crit_toks {A} (f : A -> list token) (c : jcrit A) : list token :=
  match c with
  | JUsing cols => K "USING" :: paren (commas (map (fun c => [word_token c]) cols))
  | JOn x => K "ON" :: f x
  end.
Definition set_op_toks (op : set_op) (d : bool) : list token :=
  [K (set_op_text op); K (quant_text d)].
Definition overflow_toks (x : bool * string) : list token :=
  let '(count, filler) := x in
  [K "ON"; K "OVERFLOW"; K "TRUNCATE"; sid filler; K (if count then "WITH" else "WITHOUT"); K "COUNT"].

(** The tokens of an object. *)
Fixpoint toks_n (neg : bool) (e : node) {struct e} : list token :=
  let t := toks_n false in
  let p := fun cur left x => if needs_parens cur left x then paren (t x) else t x in
  let not_ := if neg then [K "NOT"] else [] in
  match e with
  | NNone => []
  | NLit l _ => lit_toks l
  | NField n tr _ =>
      match tr with
      | TRNone | TRStr "" => [qid n]
      | TRStr s => [qid s; TSym "."; qid n]
      | TRVal v => []
      end
  | NAliased v a => t v ++ [qid a]
  | NStar tr _ =>
      match tr with
      | TRNone | TRStr "" => [TSym "*"]
      | TRStr s => [word_token s; TSym "."; TSym "*"]
      | TRVal v => []
      end
  | NAliasedStar st al => t st ++ paren (commas (map (fun c => [word_token c]) al))
  | NVar n => [word_token n]
  | NLambda vars b =>
      let vs := commas (map (fun c => [word_token c]) vars) in
      (match vars with _ :: _ :: _ => paren vs | _ => vs end) ++ TSym "->" :: t b
  | NUn UPos v => TSym "+" :: p (Some 8) true v
  | NUn UNeg v => TSym "-" :: p (Some 8) true v
  | NUn UIsNull v =>
      p (Some 3) true v ++ (if neg then [K "IS"; K "NOT"; K "NULL"] else [K "IS"; K "NULL"])
  | NUn UNot v =>
      if negatable v then toks_n true v else K "NOT" :: p (Some 2) true v
  | NBin op l r =>
      p (binop_prec op) true l ++ binop_toks neg op ++ p (binop_prec op) false r
  | NBetween v lo hi =>
      p (Some 3) true v ++ not_ ++ K "BETWEEN" :: p (Some 3) true lo ++ K "AND" :: p (Some 3) true hi
  | NArray vs => K "ARRAY" :: TSym "[" :: commas (map t vs) ++ [TSym "]"]
  | NInQuery v q => p (Some 3) true v ++ not_ ++ K "IN" :: paren (t q)
  | NInList v vs => p (Some 3) true v ++ not_ ++ K "IN" :: paren (commas (map t vs))
  | NLike v pa es =>
      p (Some 3) true v ++ not_ ++ K "LIKE" :: p (Some 3) true pa
      ++ match es with None => [] | Some x => K "ESCAPE" :: t x end
  | NTypeCtor value n => [word_token n; sid value]
  | NRow vs => paren (commas (map t vs))
  | NInterval _ _ _ => []
  | NCast try_ v ty =>
      K (if try_ then "TRY_CAST" else "CAST") :: paren (t v ++ K "AS" :: type_toks false ty)
  | NSubscript v i => t v ++ TSym "[" :: t i ++ [TSym "]"]
  | NCase bs el v =>
      K "CASE" :: match v with None => [] | Some x => t x end
      ++ concat (map (fun cv => let '(c, x) := cv in K "WHEN" :: t c ++ K "THEN" :: t x) bs)
      ++ match el with None => [] | Some x => K "ELSE" :: t x end
      ++ [K "END"]
  | NFunc f args fo => if fn_bare f then lex (fn_name f) else call_toks t (fn_name f) args fo
  | NDateTime f pr => if Z.eqb pr 3 then lex (fn_name f) else lex (fn_name f) ++ paren (int_toks pr)
  | NListAgg v sep ov ob =>
      K "LISTAGG" ::
      paren (t v ++ (if String.eqb sep " " then [] else [TSym ","; sid sep])
             ++ match ov with None => [] | Some x => overflow_toks x end)
      ++ K "WITHIN" :: K "GROUP" :: paren (K "ORDER" :: K "BY" :: commas (map (order_toks t) ob))
  | NNormalize _ _ => []
  | NSelect sel fr wh gb hv d ws qa =>
      with_toks t qa
      ++ K "SELECT" :: (if d then [K "DISTINCT"] else []) ++ commas (map t sel)
      ++ opt_toks [K "FROM"] (fun r => rel_toks false r (t r)) fr
      ++ opt_toks [K "WHERE"] t wh
      ++ opt_toks [K "GROUP"; K "BY"] (groupby_toks t) gb
      ++ opt_toks [K "HAVING"] t hv
      ++ (match ws with
          | [] => []
          | _ => K "WINDOW" :: commas (map (fun nw => let '(n, w) := nw in
                                         word_token n :: K "AS" :: paren (window_toks t w)) ws)
          end)
      ++ constraint_toks t qa
  | NSetQuery op l r d _ =>
      rel_toks false l (t l) ++ set_op_toks op d ++ rel_toks false r (t r)
  | NTableQuery ta qa => with_toks t qa ++ K "TABLE" :: t ta ++ constraint_toks t qa
  | NValues es qa => with_toks t qa ++ K "VALUES" :: commas (map t es) ++ constraint_toks t qa
  | NTable n sc ca => chain_toks [ca; sc; Some n]
  | NAliasedRel r a cols =>
      rel_toks false r (t r) ++ qid a ::
      match cols with [] => [] | _ => paren (commas (map (fun c => [word_token c]) cols)) end
  | NJoin l r jt nat c =>
      rel_toks false l (t l) ++ (if nat then [K "NATURAL"] else []) ++ join_toks jt ++ K "JOIN" ::
      rel_toks false r (t r)
      ++ match c with None => [] | Some x => crit_toks t x end
  | NUnnest vs od => K "UNNEST" :: paren (commas (map t vs))
  | NLateral q => K "LATERAL" :: paren (t q)
  | NSample r st pc =>
      rel_toks true r (t r) ++ K "TABLESAMPLE" :: K (sample_text st) :: paren (t pc)
  end.
Definition toks (e : node) : list token := toks_n false e.

(** * Direct parts of a node *)
Definition opt_kids {A} (x : option A) : list A := match x with None => [] | Some v => [v] end.
Definition bound_kids {A} (b : bound A) : list A :=
  match b with BBounded _ v => [v] | _ => [] end.
Definition window_kids {A} (w : window A) : list A :=
  let 'mkWindow _ ob ps _ st en := w in map o_value ob ++ ps ++ bound_kids st ++ bound_kids en.
Definition fopts_kids {A} (x : fopts A) : list A :=
  let 'mkFopts ob fi wi _ := x in
  map o_value ob ++ opt_kids fi ++ match wi with None => [] | Some w => window_kids w end.
Definition qattrs_kids {A} (x : qattrs A) : list A :=
  let 'mkQ wi ob _ _ := x in wi ++ map o_value ob.
Definition group_kids {A} (g : group A) : list A :=
  match g with GSet l | GCube l | GRollup l => l | GSets ll => concat ll end.
Definition groupby_kids {A} (g : groupby A) : list A :=
  let 'mkG gs _ := g in concat (map group_kids gs).
Definition jcrit_kids {A} (c : jcrit A) : list A := match c with JUsing _ => [] | JOn x => [x] end.
Definition tref_kids {A} (t : tref A) : list A := match t with TRVal v => [v] | _ => [] end.

Definition kids (e : node) : list node :=
  match e with
  | NNone | NLit _ _ | NVar _ | NTypeCtor _ _ | NInterval _ _ _ | NDateTime _ _ | NTable _ _ _ => []
  | NField _ tr _ | NStar tr _ => tref_kids tr
  | NAliased v _ | NAliasedStar v _ | NLambda _ v | NUn _ v | NCast _ v _ | NNormalize v _
  | NAliasedRel v _ _ | NLateral v => [v]
  | NBin _ a b | NInQuery a b | NSubscript a b | NSample a _ b => [a; b]
  | NBetween a b c => [a; b; c]
  | NArray vs | NRow vs | NUnnest vs _ => vs
  | NInList v vs => v :: vs
  | NLike a b c => a :: b :: opt_kids c
  | NCase bs el v => concat (map (fun cv => [fst cv; snd cv]) bs) ++ opt_kids el ++ opt_kids v
  | NFunc _ args fo => args ++ fopts_kids fo
  | NListAgg v _ _ ob => v :: map o_value ob
  | NSelect sel fr wh gb hv _ ws qa =>
      sel ++ opt_kids fr ++ opt_kids wh ++ match gb with None => [] | Some g => groupby_kids g end
      ++ opt_kids hv ++ concat (map (fun nw => window_kids (snd nw)) ws) ++ qattrs_kids qa
  | NSetQuery _ l r _ qa => l :: r :: qattrs_kids qa
  | NTableQuery t qa => t :: qattrs_kids qa
  | NValues es qa => es ++ qattrs_kids qa
  | NJoin l r _ _ c => l :: r :: match c with None => [] | Some x => jcrit_kids x end
  end.

(** * Objects whose text has the intended tokens

    The text does not start with '-' (which would make a comment after '-'). *)
Fixpoint neg_ok (e : node) : bool :=
  match e with
  | NLit (LInt z) _ => (0 <=? z)%Z
  | NLit (LDec d) _ => negb (dneg d)
  | NUn UPos _ => true
  | NUn UNeg _ => false
  | NUn UNot v => if negatable v then neg_ok v else true
  | NUn UIsNull v | NBetween v _ _ | NInQuery v _ | NInList v _ | NLike v _ _ =>
      (needs_parens (Some 3) true v || neg_ok v)%bool
  | NBin op l _ => (needs_parens (binop_prec op) true l || neg_ok l)%bool
  | NSubscript v _ => neg_ok v
  | NLit _ _ | NField _ _ _ | NVar _ | NLambda _ _ | NArray _ | NTypeCtor _ _ | NRow _
  | NCast _ _ _ | NCase _ _ _ | NFunc _ _ _ | NDateTime _ _ | NListAgg _ _ _ _ => true
  | _ => false
  end.
Definition lit_lex (l : lit) : bool :=
  match l with
  | LNone | LBool _ | LInt _ => true
  | LDec d => dec_plain d
  | LStr s => text_ok squote s
  | LFloat _ => false
  end.
Definition tref_lex {A} (f : string -> bool) (t : tref A) : bool :=
  match t with TRNone => true | TRStr s => (String.eqb s "" || f s)%bool | TRVal _ => false end.
Definition window_lex {A} (w : window A) : bool :=
  match w_parent w with None => true | Some n => (String.eqb n "" || wordy n)%bool end.
Definition opt_lex (f : string -> bool) (x : option string) : bool :=
  match x with None => true | Some s => f s end.
Definition with_lex (q : qattrs node) : bool :=
  forallb is_aliased_rel (q_with q).

Definition lex_here (e : node) : bool :=
  match e with
  | NNone | NInterval _ _ _ | NNormalize _ _ => false
  | NLit l _ => lit_lex l
  | NField n tr _ => (text_ok dquote n && tref_lex (text_ok dquote) tr)%bool
  | NAliased _ a => text_ok dquote a
  | NStar tr _ => tref_lex wordy tr
  | NAliasedStar _ al => forallb wordy al
  | NVar n => wordy n
  | NLambda vars _ => (nonempty vars && forallb wordy vars)%bool
  | NUn UNeg v => (needs_parens (Some 8) true v || neg_ok v)%bool
  | NTypeCtor v n => (text_ok squote v && wordy n)%bool
  | NCast _ _ t => wf_type t
  | NFunc _ _ fo => match fo_window fo with None => true | Some w => window_lex w end
  | NListAgg _ sep ov _ =>
      (text_ok squote sep && match ov with None => true | Some x => text_ok squote (snd x) end)%bool
  | NSelect _ _ _ _ _ _ ws qa =>
      (forallb (fun nw => wordy (fst nw) && window_lex (snd nw)) ws && with_lex qa)%bool
  | NTableQuery _ qa | NValues _ qa => with_lex qa
  | NTable n sc ca =>
      (text_ok dquote n && opt_lex (text_ok dquote) sc && opt_lex (text_ok dquote) ca)%bool
  | NAliasedRel _ a cols => (text_ok dquote a && forallb wordy cols)%bool
  | NJoin _ _ _ _ (Some (JUsing cols)) => forallb wordy cols
  | NUnnest _ od => negb od
  | _ => true
  end.
Inductive lexable : node -> Prop :=
| lexable_node e : lex_here e = true -> (forall x, In x (kids e) -> lexable x) -> lexable e.

(** Deciding it on an object of known depth. *)
Fixpoint lexable_n (n : nat) (e : node) : bool :=
  match n with
  | O => false
  | S n => (lex_here e && forallb (lexable_n n) (kids e))%bool
  end.
