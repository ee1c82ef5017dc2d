(** The [sql] methods of treeno/expression.py, relation.py, window.py,
    groupby.py, orderby.py and treeno/functions. *)
From Coq Require Import String List ZArith Bool.
From Verif Require Import PyStr Printer Types Inference Functions Ast.
Import ListNotations.
Open Scope string_scope.
Local Notation "x +++ y" := (@app _ x y) (at level 60, right associativity).

(** * Leaves *)

(** expression.py 215-226 [Literal.sql]. *)
Definition lit_sql (l : lit) : string :=
  match l with
  | LNone => "NULL"
  | LBool b => if b then "TRUE" else "FALSE"
  | LInt z => str_of_Z z
  | LDec d => dec_str d
  | LStr s => quote_literal s
  | LFloat r => r
  end.

(** expression.py 261-266 and 314-321: what precedes the last part. *)
Definition tref_text {A} (s : A -> string) (t : tref A) : option string :=
  match t with
  | TRNone => None
  | TRStr "" => None
  | TRStr x => Some x
  | TRVal v => Some (s v)
  end.

(** * Operators *)

(** expression.py 1050-1073 and functions/common.py 106 [OPERATOR_PRECEDENCE]. *)
Definition unop_prec (op : unop) : nat :=
  match op with UPos | UNeg => 8 | UNot => 2 | UIsNull => 3 end.
Definition binop_prec (op : binop) : option nat :=
  match op with
  | BMul | BDiv | BMod => Some 7
  | BAdd | BMinus => Some 6
  | BEq | BNe | BGt | BGe | BLt | BLe => Some 4
  | BAnd => Some 1
  | BOr => Some 0
  | BDistinct => None
  end.
Definition prec (e : node) : option nat :=
  match e with
  | NUn op _ => Some (unop_prec op)
  | NBin op _ _ => binop_prec op
  | NBetween _ _ _ | NInQuery _ _ | NInList _ _ | NLike _ _ _ => Some 3
  | NFunc FConcatenate _ _ => Some 5
  | _ => None
  end.

(** The symbols of the [sql] methods in expression.py 505-720. *)
Definition binop_text (neg : bool) (op : binop) : string :=
  match op with
  | BAdd => "+" | BMinus => "-" | BMul => "*" | BDiv => "/" | BMod => "%"
  | BEq => if neg then "<>" else "="
  | BNe => if neg then "=" else "<>"
  | BGt => ">" | BGe => ">=" | BLt => "<" | BLe => "<="
  | BAnd => "AND" | BOr => "OR"
  | BDistinct => if neg then "IS NOT DISTINCT FROM" else "IS DISTINCT FROM"
  end.

(** expression.py 580-594: the classes [Not] prints in negated form. *)
Definition negatable (e : node) : bool :=
  match e with
  | NBin (BDistinct | BEq | BNe) _ _ | NUn UIsNull _
  | NLike _ _ _ | NInList _ _ | NInQuery _ _ | NBetween _ _ _ => true
  | _ => false
  end.

(** expression.py 432-466 [pemdas_str]; [s] is the [sql] method of the child [v]. *)
Definition needs_parens (cur : option nat) (left : bool) (v : node) : bool :=
  match cur, prec v with
  | Some c, Some p => (Nat.ltb p c || (Nat.eqb p c && negb left))%bool
  | _, _ => false
  end.
Definition pemdas (cur : option nat) (left : bool) (v : node) (s : opts -> string) (o : opts)
  : string :=
  if needs_parens cur left v then parenthesize (s default_opts) else s o.

Definition spacing (o : opts) : string := if is_pretty o then nls else " ".

(** * Parts *)

(** orderby.py 38-45. *)
Definition order_sql {A} (s : A -> string) (x : order A) : string :=
  let 'mkOrder v d n := x in
  s v ++ (if d then " DESC" else "") ++ (if n then " NULLS FIRST" else "").

Definition frame_text (f : frame_type) : string :=
  match f with FTRange => "RANGE" | FTRows => "ROWS" | FTGroups => "GROUPS" end.
Definition bound_dir (following : bool) : string := if following then "FOLLOWING" else "PRECEDING".
(** window.py 54-76. *)
Definition bound_sql {A} (s : A -> string) (b : bound A) : string :=
  match b with
  | BBounded f v => s v ++ " " ++ bound_dir f
  | BUnbounded f => "UNBOUNDED " ++ bound_dir f
  | BCurrent => "CURRENT ROW"
  end.

Definition when {A} (b : bool) (x : A) : list A := if b then [x] else [].

(** window.py 98-126: the entries, in order. *)
Definition window_entries {A} (s : A -> string) (o : opts) (w : window A) : entries :=
  let 'mkWindow p ob ps f st en := w in
  (match p with
   | None | Some "" => []
   | Some n => [(n, "")]
   end
  +++ match ps with
     | [] => []
     | _ => [("PARTITION", "BY " ++ join_stmts (map s ps) o)]
     end
  +++ match ob with
     | [] => []
     | _ => [("ORDER", "BY " ++ join_stmts (map (order_sql s) ob) o)]
     end
  +++ [(frame_text f, "BETWEEN " ++ bound_sql s st ++ " AND " ++ bound_sql s en)]).
Definition window_sql {A} (s : A -> string) (o : opts) (w : window A) : string :=
  stmt_to_string o true (window_entries s o w).

(** aggregate.py 45-58 [get_constraint_string]. *)
Definition fopts_entries {A} (s : A -> string) (o : opts) (x : fopts A) : entries :=
  let 'mkFopts _ fi wi ig := x in
  (match fi with None => [] | Some f => [("FILTER", "(WHERE " ++ s f ++ ")")] end
  +++ when ig ("IGNORE", "NULLS")
  +++ match wi with None => [] | Some w => [("OVER", parenthesize (window_sql s o w))] end).
(** aggregate.py 60-64. *)
Definition orderby_text {A} (s : A -> string) (o : opts) (ob : list (order A)) : string :=
  "ORDER BY " ++ join_stmts (map (order_sql s) ob) o.
(** aggregate.py 66-82 with [name] for the function's name; a non-aggregate
    function prints the same without options (functions/base.py 57-65). *)
Definition call_sql {A} (s : A -> string) (o : opts) (name : string) (args : list A)
           (x : fopts A) : string :=
  let a := join_stmts (map s args) o in
  let a := match fo_orderby x with
           | [] => a
           | ob => join_stmts_d " " [a; orderby_text s o ob] o
           end in
  let c := stmt_to_string o true (fopts_entries s o x) in
  name ++ "(" ++ a ++ ")" ++
  match c with "" => "" | _ => pad (spacing o ++ c) (ospaces o) end.

(** groupby.py 21-29, 43-46, 66-67, 87-90, 108-109. *)
Definition list_sql {A} (s : A -> string) (o : opts) (l : list A) : string :=
  "(" ++ join_stmts (map s l) o ++ ")".
Definition set_sql {A} (s : A -> string) (o : opts) (l : list A) : string :=
  match l with
  | [v] => s v
  | _ => list_sql s o l
  end.
Definition group_sql {A} (s : A -> string) (o : opts) (g : group A) : string :=
  match g with
  | GSet l => set_sql s o l
  | GSets ll => "GROUPING SETS " ++ list_sql (set_sql s o) o ll
  | GCube l => "CUBE " ++ list_sql s o l
  | GRollup l => "ROLLUP " ++ list_sql s o l
  end.
Definition groupby_sql {A} (s : A -> string) (o : opts) (g : groupby A) : string :=
  let 'mkG gs d := g in
  (if d then "DISTINCT " else "") ++ join_stmts (map (group_sql s o) gs) o.

(** relation.py 1095-1110 [relation_string]; [joins]: also parenthesize joins. *)
Definition is_join (e : node) : bool := match e with NJoin _ _ _ _ _ => true | _ => false end.
Definition relation_string (newline joins : bool) (e : node) (s : string) (o : opts) : string :=
  if (is_query e || (joins && is_join e))%bool
  then parenthesize ((if (is_pretty o && newline)%bool then nls else "") ++ s)
  else s.

(** relation.py 759-764 [_named_query_sql]; for something that is not an
    aliased relation the method does not exist (see [sql_error]). *)
Definition named_query_sql (s : node -> string) (o : opts) (e : node) : string :=
  match e with
  | NAliasedRel r a cols =>
      quote_identifier a
      ++ match cols with [] => "" | _ => " " ++ join_stmts cols o end
      ++ " AS " ++ relation_string true false r (s r) o
  | _ => ""
  end.

(** relation.py 197-211. *)
Definition with_entries (s : node -> string) (o : opts) (q : qattrs node) : entries :=
  match q_with q with
  | [] => []
  | ws => [("WITH", join_stmts (map (named_query_sql s o) ws) o)]
  end.
(** relation.py 234-252; [if self.offset:] is false for 0. *)
Definition count_entry (k : string) (c : option Z) : entries :=
  match c with
  | None | Some 0%Z => []
  | Some z => [(k, str_of_Z z)]
  end.
Definition constraint_entries {A} (s : A -> string) (o : opts) (q : qattrs A) : entries :=
  let 'mkQ _ ob off lim := q in
  (match ob with
   | [] => []
   | _ => [("ORDER", "BY " ++ join_stmts (map (order_sql s) ob) o)]
   end
  +++ count_entry "OFFSET" off +++ count_entry "LIMIT" lim).

Definition opt_entry {A} (k : string) (f : A -> string) (x : option A) : entries :=
  match x with None => [] | Some a => [(k, f a)] end.

(** relation.py 783-788. *)
Definition join_text (j : join_type) : string :=
  match j with
  | JInner => "INNER" | JLeft => "LEFT" | JRight => "RIGHT" | JOuter => "FULL OUTER"
  | JCross => "CROSS"
  end.
(** relation.py 835, 868-871. *)
Definition crit_entry {A} (s : A -> string) (o : opts) (c : jcrit A) : entries :=
  match c with
  | JUsing cols => [("USING", parenthesize (join_stmts cols o))]
  | JOn x => [("ON", pad (s x) (ospaces o))]
  end.

Definition set_op_text (op : set_op) : string :=
  match op with OpIntersect => "INTERSECT" | OpExcept => "EXCEPT" | OpUnion => "UNION" end.
Definition quant_text (distinct : bool) : string := if distinct then "DISTINCT" else "ALL".
Definition sample_text (s : sample_type) : string :=
  match s with Bernoulli => "BERNOULLI" | System => "SYSTEM" end.
(** base.py 156-164; SELECT DISTINCT and GROUP BY DISTINCT print the quantifier. *)
Definition distinct_prefix (d : bool) (s : string) : string := if d then "DISTINCT " ++ s else s.

(** relation.py 1009-1016: [str_builder += " WITH ORDINALITY"] appends the
    characters one by one, so that [" ".join] puts a blank between them. *)
Definition ordinality_text : string :=
  "   W I T H   O R D I N A L I T Y".

(** aggregate.py 206-219 [OverflowFiller.sql]. *)
Definition overflow_sql (x : bool * string) : string :=
  let '(count, filler) := x in
  "TRUNCATE " ++ quote_literal filler ++ " "
  ++ (if count then "WITH COUNT" else "WITHOUT COUNT").

(** * The [sql] method

    Total: where Python raises an exception ([sql_error] below) the text is
    irrelevant.  [neg]: [to_string(opts, negate=True)], which [Not] calls on
    the classes of [negatable] (expression.py 617, 631, 702, 718, 739, 786, 808,
    835); [NotEqual.to_string] with [negate] uses [str], that is the default
    options. *)
Fixpoint sql_n (neg : bool) (e : node) (o : opts) {struct e} : string :=
  let s := fun x => sql_n false x o in
  let p := fun cur left x => pemdas cur left x (sql_n false x) o in
  let not_ := if neg then " NOT" else "" in
  match e with
  | NNone => ""
  | NLit l _ => lit_sql l
  | NField n tr _ => chain_identifiers [tref_text s tr; Some n]
  | NAliased v a => s v ++ " " ++ quote_identifier a
  | NStar tr _ =>
      match tref_text s tr with None => "*" | Some t => t ++ ".*" end
  | NAliasedStar st al => s st ++ " (" ++ join_stmts al o ++ ")"
  | NVar n => n
  | NLambda vars b =>
      let vs := join_stmts vars o in
      (match vars with _ :: _ :: _ => parenthesize vs | _ => vs end) ++ " -> " ++ s b
  | NUn UPos v => "+" ++ p (Some 8) true v
  | NUn UNeg v => "-" ++ p (Some 8) true v
  | NUn UIsNull v =>
      p (Some 3) true v ++ (if neg then " IS NOT NULL" else " IS NULL")
  | NUn UNot v =>
      if negatable v then sql_n true v o else "NOT " ++ p (Some 2) true v
  | NBin (BNe as op) l r =>
      let o := if neg then default_opts else o in
      pemdas (binop_prec op) true l (sql_n false l) o ++ " " ++ binop_text neg op ++ " "
      ++ pemdas (binop_prec op) false r (sql_n false r) o
  | NBin ((BAnd | BOr) as op) l r =>
      p (binop_prec op) true l ++ spacing o ++ binop_text neg op ++ " " ++ p (binop_prec op) false r
  | NBin op l r =>
      p (binop_prec op) true l ++ " " ++ binop_text neg op ++ " " ++ p (binop_prec op) false r
  | NBetween v lo hi =>
      p (Some 3) true v ++ not_ ++ " BETWEEN " ++ p (Some 3) true lo ++ " AND " ++ p (Some 3) true hi
  | NArray vs => "ARRAY[" ++ join_stmts (map s vs) o ++ "]"
  | NInQuery v q => p (Some 3) true v ++ not_ ++ " IN (" ++ s q ++ ")"
  | NInList v vs => p (Some 3) true v ++ not_ ++ " IN (" ++ join_stmts (map s vs) o ++ ")"
  | NLike v pa es =>
      p (Some 3) true v ++ not_ ++ " LIKE " ++ p (Some 3) true pa
      ++ match es with None => "" | Some x => " ESCAPE " ++ s x end
  | NTypeCtor value n => n ++ " " ++ quote_literal value
  | NRow vs => "(" ++ join_stmts (map s vs) o ++ ")"
  | NInterval value f t =>
      "INTERVAL " ++ value ++ " " ++ f
      ++ match t with None | Some "" => "" | Some x => " TO " ++ x end
  | NCast try_ v t =>
      (if try_ then "TRY_CAST(" else "CAST(") ++ s v ++ " AS " ++ type_sql t ++ ")"
  | NSubscript v i => s v ++ "[" ++ s i ++ "]"
  | NCase bs el v =>
      let sp := spacing o in
      "CASE " ++ match v with None => "" | Some x => s x end
      ++ pad (sp ++ join sp (map (fun cv => let '(c, x) := cv in
                                            "WHEN " ++ s c ++ " THEN " ++ s x) bs
                             +++ match el with None => [] | Some x => ["ELSE " ++ s x] end)) 4
      ++ sp ++ "END"
  | NFunc f args fo =>
      if fn_bare f then fn_name f else call_sql s o (fn_name f) args fo
  | NDateTime f pr =>
      if Z.eqb pr 3 then fn_name f else fn_name f ++ "(" ++ str_of_Z pr ++ ")"
  | NListAgg v sep ov ob =>
      let a := s v in
      let a := if String.eqb sep " " then a else join_stmts [a; quote_literal sep] o in
      let a := match ov with
               | None => a
               | Some x => join_stmts_d " " [a; "ON OVERFLOW " ++ overflow_sql x] o
               end in
      "LISTAGG(" ++ a ++ ")"
      ++ pad (spacing o ++ "WITHIN GROUP (" ++ orderby_text s o ob ++ ")") (ospaces o)
  | NNormalize _ _ => ""
  | NSelect sel fr wh gb hv d ws qa =>
      stmt_to_string o true
        (with_entries s o qa
         +++ [("SELECT", distinct_prefix d (join_stmts (map s sel) o))]
         +++ opt_entry "FROM"
              (fun r => if is_query r then pad (parenthesize (s r)) 1 else s r) fr
         +++ opt_entry "WHERE" s wh
         +++ opt_entry "GROUP" (fun g => "BY " ++ groupby_sql s o g) gb
         +++ opt_entry "HAVING" s hv
         +++ match ws with
            | [] => []
            | _ => [("WINDOW", join_stmts (map (fun nw => let '(n, w) := nw in
                       n ++ " AS " ++ parenthesize (window_sql s o w)) ws) o)]
            end
         +++ constraint_entries s o qa)
  | NSetQuery op l r d _ =>
      relation_string false false l (s l) o ++ spacing o ++ set_op_text op ++ " "
      ++ quant_text d ++ spacing o ++ relation_string false false r (s r) o
  | NTableQuery t qa =>
      stmt_to_string o true
        (with_entries s o qa +++ [("TABLE", s t)] +++ constraint_entries s o qa)
  | NValues es qa =>
      stmt_to_string o true
        (with_entries s o qa +++ [("VALUES", join_stmts (map s es) o)]
         +++ constraint_entries s o qa)
  | NTable n sc ca => chain_identifiers [ca; sc; Some n]
  | NAliasedRel r a cols =>
      relation_string true false r (s r) o ++ " " ++ quote_identifier a
      ++ match cols with [] => "" | _ => " (" ++ join_stmts cols o ++ ")" end
  | NJoin l r jt nat c =>
      stmt_to_string o false
        ([(relation_string true false l (s l) o, "");
          ((if nat then "NATURAL " else "") ++ join_text jt ++ " JOIN",
           relation_string true false r (s r) o)]
         +++ match c with None => [] | Some x => crit_entry s o x end)
  | NUnnest vs od =>
      "UNNEST(" ++ join_stmts (map s vs) o ++ ")" ++ (if od then ordinality_text else "")
  | NLateral q => "LATERAL(" ++ s q ++ ")"
  | NSample r st pc =>
      relation_string false true r (s r) o ++ " TABLESAMPLE " ++ sample_text st
      ++ "(" ++ s pc ++ ")"
  end.

(** [e.sql(opts)], where no exception is raised. *)
Definition sql (e : node) (o : opts) : string := sql_n false e o.

(** * Exceptions while printing

    [None] has no [sql] method; [Normalize.sql] calls a method that does not
    exist (string.py 279-284); the printer of a window refuses a parent window
    whose name is one of its own keywords (printer.py 92-95, window.py 98-126);
    elements of [with_] need [_named_query_sql]. *)
Definition window_keys_ok {A} (w : window A) : result unit :=
  let* _ := add_entries (window_entries (fun _ => "") default_opts w) [] in Ok tt.
Definition window_pr {A} (f : A -> result unit) (w : window A) : result unit :=
  let* _ := window_ok f f w in window_keys_ok w.
Definition fopts_pr {A} (f : A -> result unit) (x : fopts A) : result unit :=
  let 'mkFopts ob fi wi _ := x in
  let* _ := all_ok (order_ok f) ob in
  let* _ := opt_ok f fi in
  opt_ok (window_pr f) wi.
Definition group_pr {A} (f : A -> result unit) (g : group A) : result unit :=
  match g with
  | GSet l | GCube l | GRollup l => all_ok f l
  | GSets ll => all_ok (all_ok f) ll
  end.
Definition groupby_pr {A} (f : A -> result unit) (g : groupby A) : result unit :=
  let 'mkG gs _ := g in all_ok (group_pr f) gs.
Definition is_aliased_rel (e : node) : bool :=
  match e with NAliasedRel _ _ _ => true | _ => false end.

Fixpoint printable (e : node) : result unit :=
  let p := printable in
  let with_ (q : qattrs node) :=
    let 'mkQ wi ob _ _ := q in
    let* _ := all_ok (fun x => if is_aliased_rel x then printable x else Err AttributeError) wi in
    all_ok (order_ok printable) ob in
  match e with
  | NNone | NNormalize _ _ => Err AttributeError
  | NLit _ _ | NVar _ | NTypeCtor _ _ | NInterval _ _ _ | NDateTime _ _ | NTable _ _ _ => Ok tt
  | NField _ tr _ | NStar tr _ => tref_ok p tr
  | NAliased v _ | NAliasedStar v _ | NLambda _ v | NUn _ v | NCast _ v _
  | NAliasedRel v _ _ | NLateral v => p v
  | NBin _ a b | NInQuery a b | NSubscript a b | NSample a _ b => let* _ := p a in p b
  | NBetween a b c => let* _ := p a in let* _ := p b in p c
  | NArray vs | NRow vs | NUnnest vs _ => all_ok p vs
  | NInList v vs => let* _ := p v in all_ok p vs
  | NLike a b c => let* _ := p a in let* _ := p b in opt_ok p c
  | NCase bs el v =>
      let* _ := all_ok (fun cv => let '(c, x) := cv in let* _ := p c in p x) bs in
      let* _ := opt_ok p el in opt_ok p v
  | NFunc _ args fo => let* _ := all_ok p args in fopts_pr p fo
  | NListAgg v _ _ ob => let* _ := p v in all_ok (order_ok p) ob
  | NSelect sel fr wh gb hv _ ws qa =>
      let* _ := with_ qa in
      let* _ := all_ok p sel in
      let* _ := opt_ok p fr in
      let* _ := opt_ok p wh in
      let* _ := opt_ok (groupby_pr p) gb in
      let* _ := opt_ok p hv in
      all_ok (fun nw => let '(_, w) := nw in window_pr p w) ws
  | NSetQuery _ l r _ _ => let* _ := p l in p r
  | NTableQuery t qa => let* _ := with_ qa in p t
  | NValues es qa => let* _ := with_ qa in all_ok p es
  | NJoin l r _ _ c =>
      let* _ := p l in
      let* _ := p r in
      opt_ok (jcrit_ok p) c
  end.

(** base.py 70-80: [x.sql(opts)] ([str(x)] is [to_sql default_opts x]); the
    assertion of printer.py 49 is a side condition. *)
Definition to_sql (o : opts) (e : node) : result string :=
  let* _ := py_assert (Nat.ltb (ospaces o) 80) in
  let* _ := printable e in
  Ok (sql e o).
