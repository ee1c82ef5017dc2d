(** Parsing of expressions and queries: the rules of treeno/grammar/SqlBase.g4
    174-345, 395-560, 618-720 and 785-826 together with their visitors in
    treeno/builder/convert.py.

    A parser returns the outcome of the *visitor* on what it read, so that its
    result type has two layers: the outer one is the syntax, the inner one what
    the visitor returns or raises.  (Python parses the whole text first and
    visits afterwards, so a syntax error always comes before any other.)

    ANTLR predicts alternatives by unbounded look-ahead, taking the first
    alternative that can succeed.  Here the alternatives are tried in the order
    of the grammar, or chosen by the look-ahead that separates them, as noted
    at each place.  [Err SyntaxErr] means that the text is outside the language
    (ANTLR then prints a message and continues with a repaired tree, which is
    not modelled); [Err NotModelled] means that the construct is not modelled. *)
From Coq Require Import String Ascii List ZArith NArith Bool.
From Verif Require Import PyStr Types Conversions Inference Lexer TypeParser Functions Ast Walk Floats UniText.
Import ListNotations.
Open Scope nat_scope.
Open Scope string_scope.

Definition vres := pres (result node).
Definition parser := list token -> vres.

(** * What the visitors build *)

(** convert.py 116-152 on arithmetic: [None] has no operators. *)
Definition v_arith (op : binop) (a b : result node) : result node :=
  let* x := a in
  let* y := b in
  match x with NNone => Err TypeError | _ => mk (NBin op x y) end.
(** convert.py 359-370; [None == x] is [x.__eq__(None)]. *)
Definition v_compare (op : result binop) (a b : result node) : result node :=
  let* x := a in
  let* y := b in
  let* op := op in
  match x, y with
  | NNone, NNone => Err NotModelled
  | NNone, _ => Err ValueError
  | _, _ => mk (NBin op x y)
  end.
(** convert.py 329-341. *)
Definition v_logic (op : binop) (a b : result node) : result node :=
  let* x := a in
  let* y := b in mk (NBin op x y).
(** convert.py 343-344, 446-451: [~x], [-x], [+x]. *)
Definition v_unary (op : unop) (a : result node) : result node :=
  let* x := a in
  match x with NNone => Err TypeError | _ => mk (NUn op x) end.
(** convert.py 454-457. *)
Definition v_concat (a b : result node) : result node :=
  let* x := a in
  let* y := b in mk (NFunc FConcatenate [x; y] no_fopts).
(** The last lines of the predicate visitors: [~p] if NOT was read. *)
Definition v_negate (neg : bool) (p : result node) : result node :=
  let* x := p in if neg then mk (NUn UNot x) else Ok x.
(** [attr.converters.optional] and [if self.x:] turn [None] into absence. *)
Definition opt_node (x : node) : option node := match x with NNone => None | _ => Some x end.

(** SqlBase.g4 618-621, convert.py 732-735 and 738-755. *)
Definition p_string (ts : list token) : option (result string * list token) :=
  match ts with
  | TString t :: r => Some (Ok (strip squote t), r)
  | TUniString u :: TKw k _ :: TString e :: r =>
      if String.eqb k "UESCAPE" then Some (v_unicode (strip squote e) u, r)
      else Some (v_unicode "\" u, tl ts)
  | TUniString u :: r => Some (v_unicode "\" u, r)
  | _ => None
  end.

(** convert.py 686-729: a number with its sign. *)
Definition v_number (neg : bool) (t : token) : option (result node) :=
  match t with
  | TInt s =>
      let v := Z.of_N (N_of_str s) in
      let v := if neg then Z.opp v else v in
      Some (mk (NLit (LInt v) (infer_integral v)))
  | TDec s => (* a decimal token always has a dot *)
      let d := dec_of_text s in
      Some (let* t := infer_decimal d in
            mk (NLit (LDec (if neg then dec_neg d else d)) t))
  | TDbl s => Some (mk (NLit (LFloat (float_text_of neg s)) (TSimple SDouble)))
  | _ => None
  end.

(** convert.py 518-539. *)
Definition starts (c : Ascii.ascii) (s : string) : bool :=
  match s with String d _ => Ascii.eqb d c | "" => false end.
Definition v_interval (minus : bool) (s : result string) (f : string) (t : option string)
  : result node :=
  let* v := s in
  let v := if starts "+"%char v then lstrip "+"%char v else v in
  let v := if minus then (if starts "-"%char v then lstrip "-"%char v else "-" ++ v) else v in
  mk (NInterval v f t).

(** convert.py 611-620. *)
Definition v_dereference (base : result node) (i : pident) : result node :=
  let* b := base in
  match b with
  | NField n tr _ =>
      let* _ := py_assert (match tr with TRNone => true | TRStr "" => true | _ => false end) in
      let* f := visit_ident i in
      mk (NField f (TRStr n) unknown)
  | NNone => let* f := visit_ident i in mk (NField f TRNone unknown)
  | _ => let* f := visit_ident i in mk (NField f (TRVal b) unknown)
  end.

(** expression.py 372-400 [Lambda.from_generic_expr]: unqualified fields with
    the name of an input become variables.  A table cannot be rebuilt: its
    attribute [_column_schema] is not the name of a constructor argument.  (If
    rebuilding raises several exceptions, which one comes first is not modelled.) *)
Fixpoint subst (vars : list string) (e : node) : result node :=
  let f := subst vars in
  match e with
  | NField n TRNone t => if mem n vars then Ok (NVar n) else Ok e
  | NField n (TRVal v) t => let* v' := f v in Ok (NField n (TRVal v') t)
  | NNone | NLit _ _ | NField _ (TRStr _) _ | NVar _ | NTypeCtor _ _ | NInterval _ _ _
  | NDateTime _ _ | NStar TRNone _ | NStar (TRStr _) _ => Ok e
  | NStar (TRVal v) t => let* v' := f v in Ok (NStar (TRVal v') t)
  | NAliased v a => let* v' := f v in Ok (NAliased v' a)
  | NAliasedStar v a => let* v' := f v in Ok (NAliasedStar v' a)
  | NLambda vs b => let* b' := f b in Ok (NLambda vs b')
  | NUn op v => let* v' := f v in Ok (NUn op v')
  | NBin op l r => let* l' := f l in let* r' := f r in Ok (NBin op l' r')
  | NBetween a b c => let* a' := f a in let* b' := f b in let* c' := f c in Ok (NBetween a' b' c')
  | NArray vs => let* vs' := each f vs in Ok (NArray vs')
  | NInList v vs => let* v' := f v in let* vs' := each f vs in Ok (NInList v' vs')
  | NLike a b c => let* a' := f a in let* b' := f b in let* c' := opt_map f c in Ok (NLike a' b' c')
  | NRow vs => let* vs' := each f vs in Ok (NRow vs')
  | NCast tr v t => let* v' := f v in Ok (NCast tr v' t)
  | NSubscript a b => let* a' := f a in let* b' := f b in Ok (NSubscript a' b')
  | NCase bs el v =>
      let* bs' := each (fun cv => let '(c, x) := cv in
                                  let* c' := f c in let* x' := f x in Ok (c', x')) bs in
      let* el' := opt_map f el in
      let* v' := opt_map f v in Ok (NCase bs' el' v')
  | NFunc g args fo =>
      let* args' := each f args in
      let* fo' := fopts_map f fo in Ok (NFunc g args' fo')
  | NListAgg v sep ov ob =>
      let* v' := f v in
      let* ob' := each (order_map f) ob in Ok (NListAgg v' sep ov ob')
  | NNormalize v nf => let* v' := f v in Ok (NNormalize v' nf)
  | NTable _ _ _ => Err TypeError
  | _ => node_each f e
  end.
Definition from_generic_expr (vars : list string) (b : node) : result node :=
  let* b' := subst vars b in
  mk (NLambda vars b').
(** convert.py 841-847. *)
Definition v_lambda (vars : list pident) (body : result node) : result node :=
  let* vs := each visit_ident vars in
  let* b := body in
  from_generic_expr vs b.

(** functions/base.py 40-57 and the overrides: common.py 92-97, conditional.py
    56-61, datetime.py 185-194, aggregate.py 492-497.  [kw]: some keyword
    argument is given.  ([None] for an optional argument is not modelled.) *)
Definition from_args (f : fn) (args : list node) (kw : bool) (fo : fopts node) : result node :=
  let* _ := py_assert (negb kw || is_aggregate f)%bool in
  if (existsb is_none args && negb (match fn_arity f with
                                    | (lo, Some hi) => Nat.eqb lo hi
                                    | _ => true
                                    end))%bool
  then Err NotModelled
  else match f, args with
       | FFromUnixtime, ([_; _] | [_; _; _]) => mk (NFunc f args fo)
       | FFromUnixtime, _ => Err ValueError
       | FApproxPercentile, [v; w; p] => mk (NFunc f [v; p; w] fo)
       | _, _ => mk (NFunc f args fo)
       end.

(** The parts of a function call as read. *)
Record call := mkCall {
  c_over : option (result (window node));
  c_sorts : option (result (list (order node)));
  c_filter : option (result node);
  c_null : option bool; (* IGNORE? *)
  c_args : result (list node) }.
Definition seq_opt {A} (x : option (result A)) : result (option A) :=
  match x with None => Ok None | Some r => let* a := r in Ok (Some a) end.

(** convert.py 1105-1108. *)
Definition v_names (l : list pident) : result (list string) := each visit_ident l.

(** convert.py 781-838. *)
Definition v_call (en : env) (names : list pident) (c : call) : result node :=
  let* ns := v_names names in
  match ns with
  | [name] =>
      match names_to_functions en (upper name) with
      | None => Err AssertionError
      | Some f =>
          let* w := match c_over c with
                    | None => Ok None
                    | Some w => let* _ := py_assert (is_aggregate f) in
                                let* w := w in Ok (Some w)
                    end in
          let* ob := seq_opt (c_sorts c) in
          let* fi := seq_opt (c_filter c) in
          let* args := c_args c in
          let kw := (match w with None => false | _ => true end
                     || match ob with None => false | _ => true end
                     || match fi with None => false | _ => true end
                     || match c_null c with None => false | _ => true end)%bool in
          from_args f args kw
            (mkFopts (match ob with None => [] | Some l => l end)
                     (match fi with None => None | Some x => opt_node x end)
                     w
                     (match c_null c with Some b => b | None => false end))
      end
  | _ => Err AssertionError
  end.

(** convert.py 623-636. *)
Definition v_datetime (en : env) (name : string) (precision : option Z) : result node :=
  match names_to_functions en (upper name) with
  | None => Err AssertionError
  | Some f =>
      match f with
      | FCurrentTime | FCurrentTimestamp | FLocalTime | FLocalTimestamp =>
          mk (NDateTime f (match precision with None => 3%Z | Some p => p end))
      | _ => mk (NFunc f [] no_fopts)
      end
  end.

(** convert.py 768-778; DOUBLE PRECISION gives [type_name] no value. *)
Definition v_type_ctor (name : pident) (value : result string) : result node :=
  let* v := value in
  let* n := visit_ident name in
  mk (NTypeCtor v (upper n)).

Definition v_cast (try_ : bool) (e : result node) (t : ptype) : result node :=
  let* x := e in
  let* r := visit_type t in
  match canon r with
  | Some d => mk (NCast try_ x d)
  | None => Err NotModelled
  end.

(** convert.py 460-474. *)
Definition v_case (operand : option (result node)) (ws : result (list (node * node)))
           (el : option (result node)) : result node :=
  let* ws := ws in
  let* v := seq_opt operand in
  let* e := seq_opt el in
  mk (NCase ws e (match v with None => None | Some x => opt_node x end)).
(** convert.py 477-480 (the constructor [When] wraps both). *)
Definition v_when (c x : result node) : result (node * node) :=
  let* c := c in
  let* x := x in
  let* _ := wrapped c (check c) in
  let* _ := wrapped x (check x) in Ok (c, x).

(** convert.py 264-276. *)
Definition v_sort (e : result node) (desc nulls_first : bool) : result (order node) :=
  let* x := e in Ok (mkOrder x desc nulls_first).

(** convert.py 155-161. *)
Definition table_from_qualifiers (l : list string) : result node :=
  match rev l with
  | [] => Err IndexError
  | name :: r => mk (NTable name (nth_error r 0) (nth_error r 1))
  end.
Definition v_table (names : list pident) : result node :=
  let* l := v_names names in table_from_qualifiers l.

(** Assignment to attributes of a query; [None] has none. *)
Definition set_q (f : qattrs node -> qattrs node) (q : node) : result node :=
  match q with
  | NSelect a b c d e g h qa => Ok (NSelect a b c d e g h (f qa))
  | NSetQuery a b c d qa => Ok (NSetQuery a b c d (f qa))
  | NTableQuery a qa => Ok (NTableQuery a (f qa))
  | NValues a qa => Ok (NValues a (f qa))
  | _ => Err AttributeError
  end.

(** convert.py 323-326: the text read must be upper case. *)
Definition v_quant (txt : string) : result bool :=
  if String.eqb txt "DISTINCT" then Ok true
  else if String.eqb txt "ALL" then Ok false else Err KeyError.

(** Python [dict(pairs)]: a later pair replaces the value of an earlier one. *)
Fixpoint dict_set {A} (k : string) (v : A) (l : list (string * A)) : list (string * A) :=
  match l with
  | [] => [(k, v)]
  | (k', v') :: r => if String.eqb k' k then (k', v) :: r else (k', v') :: dict_set k v r
  end.
Definition dict_of {A} (l : list (string * A)) : list (string * A) :=
  fold_left (fun m kv => dict_set (fst kv) (snd kv) m) l [].

(** * Parsers of lists and of chains

    These take the parsers of their parts as arguments, and as first argument a
    bound on the number of rounds (the number of tokens suffices). *)

(** [p (',' p)*]. *)
Definition p_sep {A} (p : list token -> pres (result A))
  : nat -> list token -> pres (result (list A)) :=
  fix go (k : nat) (ts : list token) : pres (result (list A)) :=
    match k with
    | O => Err OutOfFuel
    | S k =>
        let* (a, r) := p ts in
        match eat_sym "," r with
        | Some r1 =>
            let* (l, r2) := go k r1 in
            Ok ((let* x := a in let* y := l in Ok (x :: y)), r2)
        | None => Ok ((let* x := a in Ok [x]), r)
        end
    end.
Definition sep {A} (p : list token -> pres (result A)) (ts : list token)
  : pres (result (list A)) := p_sep p (S (length ts)) ts.

(** [identifier (',' identifier)*] *)
Definition p_name (ts : list token) : pres (result pident) :=
  let* (i, r) := p_ident ts in Ok (Ok i, r).
Definition p_idents (ts : list token) : pres (list pident) :=
  let* (l, r) := sep p_name ts in
  let* l := l in Ok (l, r).

(** [qualifiedName]: identifier ('.' identifier)*; stops before a '.' that is
    not followed by an identifier. *)
Fixpoint p_qname_tail (k : nat) (ts : list token) : list pident * list token :=
  match k with
  | O => ([], ts)
  | S k =>
      match eat_sym "." ts with
      | Some r =>
          match p_ident r with
          | Ok (i, r1) => let '(l, r2) := p_qname_tail k r1 in (i :: l, r2)
          | Err _ => ([], ts)
          end
      | None => ([], ts)
      end
  end.
Definition p_qname (ts : list token) : pres (list pident) :=
  let* (i, r) := p_ident ts in
  let '(l, r1) := p_qname_tail (S (length r)) r in Ok (i :: l, r1).

(** SqlBase.g4 469-476: levels and operators of [valueExpression]. *)
Inductive vop := VArith (op : binop) | VConcat.
Definition vop_sym (s : string) : option (nat * vop) :=
  if String.eqb s "*" then Some (3, VArith BMul)
  else if String.eqb s "/" then Some (3, VArith BDiv)
  else if String.eqb s "%" then Some (3, VArith BMod)
  else if String.eqb s "+" then Some (2, VArith BAdd)
  else if String.eqb s "-" then Some (2, VArith BMinus)
  else if String.eqb s "||" then Some (1, VConcat)
  else None.
Definition v_vop (op : vop) (a b : result node) : result node :=
  match op with VArith o => v_arith o a b | VConcat => v_concat a b end.

(** SqlBase.g4 640-642. *)
Definition p_interval (ts : list token) : vres :=
  let '(minus, r) := match eat_sym "-" ts with
                     | Some r => (true, r)
                     | None => match eat_sym "+" ts with Some r => (false, r) | None => (false, ts) end
                     end in
  match p_string r with
  | None => Err SyntaxErr
  | Some (s, r1) =>
      let* (f, r2) := p_interval_field r1 in
      match eat_kw "TO" r2 with
      | Some r3 => let* (t, r4) := p_interval_field r3 in Ok (v_interval minus s f (Some t), r4)
      | None => Ok (v_interval minus s f None, r2)
      end
  end.

(** SqlBase.g4 623-626, after TIME ZONE.  Neither alternative has a visitor, so
    the last child's result comes out: an [Interval], or a Python string, which
    is no node and is not modelled. *)
Definition p_zone_value (ts : list token) : vres :=
  match eat_kw "INTERVAL" ts with
  | Some r => p_interval r
  | None =>
      match p_string ts with
      | Some (s, r) => Ok ((let* _ := s in Err NotModelled), r)
      | None => Err SyntaxErr
      end
  end.
(** AT TIME ZONE ahead. *)
Definition at_zone (ts : list token) : bool :=
  match ts with
  | TKw a _ :: TKw b _ :: TKw c _ :: _ =>
      (String.eqb a "AT" && String.eqb b "TIME" && String.eqb c "ZONE")%bool
  | _ => false
  end.

(** The left-recursive alternatives of [valueExpression]: precedence climbing
    as in the code ANTLR generates; [pv] is [valueExpression] at a level. *)
Definition value_loop (pv : nat -> parser) : nat -> nat -> result node -> parser :=
  fix go (k lvl : nat) (acc : result node) (ts : list token) : vres :=
    match k with
    | O => Err OutOfFuel
    | S k =>
        match ts with
        | TSym s :: r =>
            match vop_sym s with
            | Some (p, op) =>
                if Nat.leb lvl p then
                  let* (b, r1) := pv (S p) r in go k lvl (v_vop op acc b) r1
                else Ok (acc, ts)
            | None => Ok (acc, ts)
            end
        | _ =>
            (* [atTimeZone] has no visitor: the last child's result, after the
               first child has been visited *)
            if at_zone ts then
              let* (z, r) := p_zone_value (skipn 3 ts) in go k lvl (let* _ := acc in z) r
            else Ok (acc, ts)
        end
    end.

Definition is_number (t : token) : bool :=
  match t with TInt _ | TDec _ | TDbl _ => true | _ => false end.

(** SqlBase.g4 469-476.  '-' before a number: both [number] (an alternative of
    [primaryExpression], which comes first) and the unary operator match. *)
Definition value_body (pv : nat -> parser) (pp : parser) (lvl : nat) (ts : list token) : vres :=
  let unary op r := let* (a, r1) := pv 4 r in Ok (v_unary op a, r1) in
  let* (a, r) :=
    match ts with
    | TSym s :: r =>
        if String.eqb s "-" then
          match r with
          | t :: _ => if is_number t then pp ts else unary UNeg r
          | [] => unary UNeg r
          end
        else if String.eqb s "+" then unary UPos r
        else pp ts
    | _ => pp ts
    end in
  value_loop pv (S (length r)) lvl a r.

(** SqlBase.g4 450-455: AND binds at level 2, OR at level 1. *)
Definition bool_loop (pb : nat -> parser) : nat -> nat -> result node -> parser :=
  fix go (k lvl : nat) (acc : result node) (ts : list token) : vres :=
    match k with
    | O => Err OutOfFuel
    | S k =>
        match ts with
        | TKw w _ :: r =>
            if (String.eqb w "AND" && Nat.leb lvl 2)%bool then
              let* (b, r1) := pb 3 r in go k lvl (v_logic BAnd acc b) r1
            else if (String.eqb w "OR" && Nat.leb lvl 1)%bool then
              let* (b, r1) := pb 2 r in go k lvl (v_logic BOr acc b) r1
            else Ok (acc, ts)
        | _ => Ok (acc, ts)
        end
    end.

(** SqlBase.g4 628-630 with the operators of convert.py 116-152 ('!=' is not
    one of them). *)
Definition cmp_sym (s : string) : option (result binop) :=
  if String.eqb s "=" then Some (Ok BEq)
  else if String.eqb s "<>" then Some (Ok BNe)
  else if String.eqb s "!=" then Some (Err NotImplementedError)
  else if String.eqb s "<" then Some (Ok BLt)
  else if String.eqb s "<=" then Some (Ok BLe)
  else if String.eqb s ">" then Some (Ok BGt)
  else if String.eqb s ">=" then Some (Ok BGe)
  else None.

(** BETWEEN, IN, LIKE (convert.py 379-417).  For IN the list comes first in
    the grammar. *)
Definition pred_tail (pe pv pq : parser) (neg : bool) (left : result node) (k : string)
           (r : list token) : vres :=
  if String.eqb k "BETWEEN" then
    let* (lo, r1) := pv r in
    let* r2 := need (eat_kw "AND" r1) in
    let* (hi, r3) := pv r2 in
    Ok (v_negate neg (let* x := left in let* a := lo in let* b := hi in mk (NBetween x a b)), r3)
  else if String.eqb k "IN" then
    let* r1 := need (eat_sym "(" r) in
    orelse
      (let* (l, r2) := sep pe r1 in
       let* r3 := need (eat_sym ")" r2) in
       Ok (v_negate neg (let* x := left in let* l := l in mk (NInList x l)), r3))
      (fun _ =>
         let* (q, r2) := pq r1 in
         let* r3 := need (eat_sym ")" r2) in
         Ok (v_negate neg (let* x := left in let* q := q in mk (NInQuery x q)), r3))
  else if String.eqb k "LIKE" then
    let* (p, r1) := pv r in
    match eat_kw "ESCAPE" r1 with
    | Some r2 =>
        let* (e, r3) := pv r2 in
        Ok (v_negate neg (let* x := left in
                          let* e := e in
                          let* p := p in mk (NLike x p (opt_node e))), r3)
    | None =>
        Ok (v_negate neg (let* x := left in let* p := p in mk (NLike x p None)), r1)
    end
  else Err SyntaxErr.
Definition is_tail_kw (k : string) : bool := mem k ["BETWEEN"; "IN"; "LIKE"].

(** SqlBase.g4 457-467, the optional [predicate]. *)
Definition predicate (pe pv pq : parser) (left : result node) (ts : list token) : vres :=
  match ts with
  | TSym s :: r =>
      match cmp_sym s with
      | Some op =>
          orelse
            (let* (b, r1) := pv r in Ok (v_compare op left b, r1))
            (fun _ =>
               match r with
               | TKw q _ :: r1 =>
                   if mem q ["ALL"; "SOME"; "ANY"] then
                     let* r2 := need (eat_sym "(" r1) in
                     let* (_, r3) := pq r2 in
                     let* r4 := need (eat_sym ")" r3) in
                     Ok ((let* _ := left in Err NotImplementedError), r4)
                   else Err SyntaxErr
               | _ => Err SyntaxErr
               end)
      | None => Ok (left, ts)
      end
  | TKw k _ :: r =>
      if String.eqb k "NOT" then
        match r with
        | TKw k2 _ :: r2 => pred_tail pe pv pq true left k2 r2
        | _ => Err SyntaxErr
        end
      else if String.eqb k "IS" then
        let '(neg, r1) := match eat_kw "NOT" r with Some r1 => (true, r1) | None => (false, r) end in
        match eat_kw "NULL" r1 with
        | Some r2 => Ok (v_negate neg (let* x := left in mk (NUn UIsNull x)), r2)
        | None =>
            let* r2 := need (eat_kw "DISTINCT" r1) in
            let* r3 := need (eat_kw "FROM" r2) in
            let* (b, r4) := pv r3 in
            Ok (v_negate neg (let* x := left in let* y := b in mk (NBin BDistinct x y)), r4)
        end
      else if is_tail_kw k then pred_tail pe pv pq false left k r
      else Ok (left, ts)
  | _ => Ok (left, ts)
  end.

Definition bool_body (pb : nat -> parser) (pv pq : parser) (lvl : nat) (ts : list token) : vres :=
  let* (a, r) :=
    match eat_kw "NOT" ts with
    | Some r => let* (a, r1) := pb 3 r in Ok (v_unary UNot a, r1)
    | None =>
        let* (a, r) := pv ts in
        predicate (pb 0) pv pq a r
    end in
  bool_loop pb (S (length r)) lvl a r.

(** * Parts of queries and calls *)

(** SqlBase.g4 244-246. *)
Definition p_sort (pe : parser) (ts : list token) : pres (result (order node)) :=
  let* (e, r) := pe ts in
  let '(d, r1) :=
    match eat_kw "ASC" r with
    | Some r1 => (false, r1)
    | None => match eat_kw "DESC" r with Some r1 => (true, r1) | None => (false, r) end
    end in
  match eat_kw "NULLS" r1 with
  | Some r2 =>
      match eat_kw "FIRST" r2 with
      | Some r3 => Ok (v_sort e d true, r3)
      | None => let* r3 := need (eat_kw "LAST" r2) in Ok (v_sort e d false, r3)
      end
  | None => Ok (v_sort e d false, r1)
  end.
(** An optional ORDER BY clause. *)
Definition p_orderby (pe : parser) (ts : list token)
  : pres (option (result (list (order node)))) :=
  match eat_kw "ORDER" ts with
  | Some r =>
      let* r1 := need (eat_kw "BY" r) in
      let* (l, r2) := sep (p_sort pe) r1 in Ok (Some l, r2)
  | None => Ok (None, ts)
  end.

(** SqlBase.g4 715-720, convert.py 1246-1266. *)
Definition p_direction (ts : list token) : pres bool :=
  match eat_kw "PRECEDING" ts with
  | Some r => Ok (false, r)
  | None => let* r := need (eat_kw "FOLLOWING" ts) in Ok (true, r)
  end.
Definition p_bound (pe : parser) (ts : list token) : pres (result (bound node)) :=
  orelse
    (match eat_kw "UNBOUNDED" ts with
     | Some r => let* (d, r1) := p_direction r in Ok (Ok (BUnbounded d), r1)
     | None =>
         let* r := need (eat_kw "CURRENT" ts) in
         let* r1 := need (eat_kw "ROW" r) in Ok (Ok BCurrent, r1)
     end)
    (fun _ =>
       let* (e, r) := pe ts in
       let* (d, r1) := p_direction r in
       Ok ((let* x := e in let* _ := wrapped x (check x) in Ok (BBounded d x)), r1)).

(** SqlBase.g4 696-713, convert.py 1221-1244 (the pattern recognition parts are
    not modelled). *)
Definition frame_kw (k : string) : option frame_type :=
  if String.eqb k "RANGE" then Some FTRange
  else if String.eqb k "ROWS" then Some FTRows
  else if String.eqb k "GROUPS" then Some FTGroups else None.
Definition frame_ahead (ts : list token) : option (frame_type * list token) :=
  match ts with
  | TKw k _ :: r => match frame_kw k with Some f => Some (f, r) | None => None end
  | _ => None
  end.
Definition v_frame (f : frame_type) (s : result (bound node)) (e : option (result (bound node)))
  : result (window node) :=
  let* s := s in
  let* e := seq_opt e in
  Ok (mkWindow None [] [] f s (match e with None => BCurrent | Some b => b end)).
Definition p_frame (pe : parser) (f : frame_type) (r : list token)
  : pres (result (window node)) :=
  match eat_kw "BETWEEN" r with
  | Some r1 =>
      let* (s, r2) := p_bound pe r1 in
      let* r3 := need (eat_kw "AND" r2) in
      let* (e, r4) := p_bound pe r3 in
      Ok (v_frame f s (Some e), r4)
  | None =>
      let* (s, r1) := p_bound pe r in
      Ok (v_frame f s None, r1)
  end.

(** Whether a window specification starts with a window name. *)
Definition window_name_ahead (ts : list token) : bool :=
  match ts with
  | TKw k _ :: r =>
      (mem k non_reserved
       && negb (String.eqb k "PARTITION" && match eat_kw "BY" r with Some _ => true | None => false end)
       && negb (match frame_kw k, r with
                | Some _, TSym s :: _ => negb (String.eqb s ")")
                | Some _, TKw k2 _ :: _ =>
                    negb (mem k2 ["PARTITION"; "ORDER"; "RANGE"; "ROWS"; "GROUPS"])
                | Some _, _ => true
                | None, _ => false
                end))%bool
  | TId _ :: _ | TQuoted _ :: _ | TBack _ :: _ | TDigitId _ :: _ => true
  | _ => false
  end.
Definition set_parent {A} (p : option string) (w : window A) : window A :=
  let 'mkWindow _ ob ps f s e := w in mkWindow p ob ps f s e.
(** SqlBase.g4 277-282, convert.py 1202-1218. *)
Definition v_winspec (name : option pident) (parts : option (result (list node)))
           (ob : option (result (list (order node)))) (fr : option (result (window node)))
  : result (window node) :=
  let* w := match fr with None => Ok default_window | Some w => w end in
  let* ob := seq_opt ob in
  let* ps := seq_opt parts in
  let* p := match name with
            | None => Ok None
            | Some i => let* s := visit_ident i in Ok (Some s)
            end in
  Ok (mkWindow p (match ob with None => [] | Some l => l end)
               (match ps with None => [] | Some l => l end)
               (w_frame w) (w_start w) (w_end w)).
Definition p_winspec (pe : parser) (ts : list token) : pres (result (window node)) :=
  let* (name, r) :=
    if window_name_ahead ts
    then (let* (i, r) := p_ident ts in Ok (Some i, r)) else Ok (None, ts) in
  let* (parts, r1) :=
    match eat_kw "PARTITION" r with
    | Some r1 =>
        let* r2 := need (eat_kw "BY" r1) in
        let* (l, r3) := sep pe r2 in Ok (Some l, r3)
    | None => Ok (None, r)
    end in
  let* (ob, r2) := p_orderby pe r1 in
  match frame_ahead r2 with
  | Some (f, r3) =>
      let* (w, r4) := p_frame pe f r3 in Ok (v_winspec name parts ob (Some w), r4)
  | None => Ok (v_winspec name parts ob None, r2)
  end.

(** SqlBase.g4 692-694; OVER is not reserved, so something must follow. *)
Definition p_over (pe : parser) (ts : list token) : pres (option (result (window node))) :=
  match eat_kw "OVER" ts with
  | None => Ok (None, ts)
  | Some r =>
      match eat_sym "(" r with
      | Some r1 =>
          let* (w, r2) := p_winspec pe r1 in
          let* r3 := need (eat_sym ")" r2) in Ok (Some w, r3)
      | None =>
          match p_ident r with
          | Ok (i, r1) =>
              Ok (Some (let* s := visit_ident i in Ok (set_parent (Some s) default_window)), r1)
          | Err _ => Ok (None, ts)
          end
      end
  end.
Definition p_filter (pe : parser) (ts : list token) : pres (option (result node)) :=
  match eat_kw "FILTER" ts with
  | None => Ok (None, ts)
  | Some r =>
      match eat_sym "(" r with
      | None => Ok (None, ts)
      | Some r1 =>
          let* r2 := need (eat_kw "WHERE" r1) in
          let* (e, r3) := pe r2 in
          let* r4 := need (eat_sym ")" r3) in Ok (Some e, r4)
      end
  end.
(** [over] ahead. *)
Definition measure_ahead (r : list token) : bool :=
  match eat_kw "OVER" r with
  | Some r1 => (match eat_sym "(" r1 with Some _ => true | None => is_ok (p_ident r1) end)%bool
  | None => false
  end.
(** SqlBase.g4 497 [(nullTreatment? over)?], 613-616: only before [over]. *)
Definition p_null_treatment (ts : list token) : option bool * list token :=
  match ts with
  | TKw k _ :: TKw n _ :: r =>
      if ((String.eqb k "IGNORE" || String.eqb k "RESPECT")
          && String.eqb n "NULLS" && measure_ahead r)%bool
      then (Some (String.eqb k "IGNORE"), r) else (None, ts)
  | _ => (None, ts)
  end.

(** Tokens that can start an expression (used to tell ALL as a quantifier). *)
Definition starts_expr (ts : list token) : bool :=
  match ts with
  | (TId _ | TDigitId _ | TQuoted _ | TBack _ | TString _ | TUniString _ | TBinary _
    | TInt _ | TDec _ | TDbl _) :: _ => true
  | TSym s :: _ => mem s ["("; "+"; "-"; "*"; "?"]
  | TKw k _ :: _ =>
      (mem k non_reserved
       || mem k ["NULL"; "TRUE"; "FALSE"; "CASE"; "CAST"; "NOT"; "EXISTS"; "LISTAGG"; "NORMALIZE";
                 "CURRENT_DATE"; "CURRENT_TIME"; "CURRENT_TIMESTAMP"; "LOCALTIME"; "LOCALTIMESTAMP";
                 "CURRENT_USER"; "CURRENT_CATALOG"; "CURRENT_SCHEMA"; "CURRENT_PATH"; "TRIM";
                 "EXTRACT"; "GROUPING"; "JSON_EXISTS"; "JSON_VALUE"; "JSON_QUERY"; "JSON_OBJECT";
                 "JSON_ARRAY"])%bool
  | _ => false
  end.
(** An optional [setQuantifier] before expressions: its text. *)
Definition p_quant (ts : list token) : option string * list token :=
  match ts with
  | TKw k t :: r =>
      if String.eqb k "DISTINCT" then (Some t, r)
      else if (String.eqb k "ALL" && starts_expr r)%bool then (Some t, r)
      else (None, ts)
  | _ => (None, ts)
  end.

(** [( * )] and [( label.* )] after the opening parenthesis. *)
Definition star_ahead (ts : list token) : option (result node * list token) :=
  match ts with
  | TSym a :: TSym b :: r =>
      if (String.eqb a "*" && String.eqb b ")")%bool
      then Some (mk (NStar TRNone unknown), r) else None
  | _ =>
      match p_ident ts with
      | Ok (i, TSym d :: TSym a :: TSym b :: r) =>
          if (String.eqb d "." && String.eqb a "*" && String.eqb b ")")%bool
          then Some ((let* l := visit_ident i in mk (NStar (TRStr l) unknown)), r) else None
      | _ => None
      end
  end.
(** Whether a call has no arguments: a parenthesis or ORDER BY ahead. *)
Definition no_args_ahead (ts : list token) : bool :=
  match ts with
  | TSym s :: _ => String.eqb s ")"
  | TKw k _ :: _ => String.eqb k "ORDER"
  | _ => false
  end.
(** SqlBase.g4 494-497 after the opening parenthesis.  The quantifier is read
    and ignored by the visitor. *)
Definition p_call (en : env) (pe : parser) (names : list pident) (ts : list token) : vres :=
  match star_ahead ts with
  | Some (s, r) =>
      let* (fi, r1) := p_filter pe r in
      let* (ov, r2) := p_over pe r1 in
      Ok (v_call en names (mkCall ov None fi None (let* x := s in Ok [x])), r2)
  | None =>
      let* (args, r1) :=
        if no_args_ahead ts then Ok (Ok [], ts)
        else let '(_, r) := p_quant ts in sep pe r in
      let* (ob, r2) := p_orderby pe r1 in
      let* r3 := need (eat_sym ")" r2) in
      let* (fi, r4) := p_filter pe r3 in
      let '(nt, r5) := p_null_treatment r4 in
      let* (ov, r6) := p_over pe r5 in
      Ok (v_call en names (mkCall ov ob fi nt args), r6)
  end.

(** SqlBase.g4 491-493, convert.py 873-912. *)
Definition p_overflow (ts : list token) : pres (result (option (bool * string))) :=
  match eat_kw "ERROR" ts with
  | Some r => Ok (Ok None, r)
  | None =>
      let* r := need (eat_kw "TRUNCATE" ts) in
      let '(s, r1) := match p_string r with Some sr => sr | None => (Ok "...", r) end in
      let* (w, r2) := match eat_kw "WITH" r1 with
                      | Some r2 => Ok (true, r2)
                      | None => let* r2 := need (eat_kw "WITHOUT" r1) in Ok (false, r2)
                      end in
      let* r3 := need (eat_kw "COUNT" r2) in
      Ok ((let* s := s in Ok (Some (w, s))), r3)
  end.
Definition v_listagg (sep : option (result string)) (ov : option (result (option (bool * string))))
           (ob : result (list (order node))) (e : result node) : result node :=
  let* sp := seq_opt sep in
  let* o := seq_opt ov in
  let* l := ob in
  let* x := e in
  mk (NListAgg x (match sp with None => " " | Some s => s end)
               (match o with None => None | Some f => f end) l).
Definition p_listagg (pe : parser) (ts : list token) : vres :=
  let '(_, r) := p_quant ts in
  let* (e, r1) := pe r in
  let* (sp, r2) := match eat_sym "," r1 with
                   | Some r2 => match p_string r2 with
                                | Some (s, r3) => Ok (Some s, r3)
                                | None => Err SyntaxErr
                                end
                   | None => Ok (None, r1)
                   end in
  let* (ov, r3) := match eat_kw "ON" r2 with
                   | Some r3 => let* r4 := need (eat_kw "OVERFLOW" r3) in
                                let* (o, r5) := p_overflow r4 in Ok (Some o, r5)
                   | None => Ok (None, r2)
                   end in
  let* r4 := need (eat_sym ")" r3) in
  let* r5 := need (eat_kw "WITHIN" r4) in
  let* r6 := need (eat_kw "GROUP" r5) in
  let* r7 := need (eat_sym "(" r6) in
  let* (ob, r8) := p_orderby pe r7 in
  match ob with
  | None => Err SyntaxErr
  | Some l => let* r9 := need (eat_sym ")" r8) in Ok (v_listagg sp ov l e, r9)
  end.

(** [whenClause+] *)
Definition p_whens (pe : parser) : nat -> list token -> pres (result (list (node * node))) :=
  fix go (k : nat) (ts : list token) : pres (result (list (node * node))) :=
    match k with
    | O => Err OutOfFuel
    | S k =>
        let* r := need (eat_kw "WHEN" ts) in
        let* (c, r1) := pe r in
        let* r2 := need (eat_kw "THEN" r1) in
        let* (x, r3) := pe r2 in
        match eat_kw "WHEN" r3 with
        | Some _ =>
            let* (l, r4) := go k r3 in
            Ok ((let* a := v_when c x in let* b := l in Ok (a :: b)), r4)
        | None => Ok ((let* a := v_when c x in Ok [a]), r3)
        end
    end.
(** SqlBase.g4 505-506 after CASE. *)
Definition p_case (pe : parser) (ts : list token) : vres :=
  let* (operand, r) := match eat_kw "WHEN" ts with
                       | Some _ => Ok (None, ts)
                       | None => let* (e, r) := pe ts in Ok (Some e, r)
                       end in
  let* (ws, r1) := p_whens pe (S (length r)) r in
  let* (el, r2) := match eat_kw "ELSE" r1 with
                   | Some r2 => let* (e, r3) := pe r2 in Ok (Some e, r3)
                   | None => Ok (None, r1)
                   end in
  let* r3 := need (eat_kw "END" r2) in Ok (v_case operand ws el, r3).

(** [( expression AS type )] *)
Definition p_cast (pe : parser) (try_ : bool) (ts : list token) : vres :=
  let* r := need (eat_sym "(" ts) in
  let* (e, r1) := pe r in
  let* r2 := need (eat_kw "AS" r1) in
  let* (t, r3) := p_type (type_fuel r2) r2 in
  let* r4 := need (eat_sym ")" r3) in Ok (v_cast try_ e t, r4).

(** The inputs of a lambda in parentheses, if ahead (after the parenthesis). *)
Definition lambda_ahead (ts : list token) : option (list pident * list token) :=
  match ts with
  | TSym a :: TSym b :: r =>
      if (String.eqb a ")" && String.eqb b "->")%bool then Some ([], r) else None
  | _ =>
      match p_idents ts with
      | Ok (l, TSym a :: TSym b :: r) =>
          if (String.eqb a ")" && String.eqb b "->")%bool then Some (l, r) else None
      | _ => None
      end
  end.
(** A query ahead, possibly after more parentheses. *)
Fixpoint query_ahead (ts : list token) : bool :=
  match ts with
  | TSym s :: r => if String.eqb s "(" then query_ahead r else false
  | TKw k _ :: _ => mem k ["SELECT"; "WITH"; "TABLE"; "VALUES"]
  | _ => false
  end.

(** '(' ... ')' as a [primaryExpression], after the parenthesis: a subquery, a
    row or an expression in parentheses. *)
Definition p_paren (pe pq : parser) (ts : list token) : vres :=
  let exprs (_ : unit) :=
    let* (l, r) := sep pe ts in
    let* r1 := need (eat_sym ")" r) in
    Ok ((let* l := l in match l with [x] => Ok x | _ => mk (NRow l) end), r1) in
  match lambda_ahead ts with
  | Some (vars, r) => let* (b, r1) := pe r in Ok (v_lambda vars b, r1)
  | None =>
      if query_ahead ts then
        orelse (let* (q, r) := pq ts in
                let* r1 := need (eat_sym ")" r) in Ok (q, r1))
               exprs
      else exprs tt
  end.

(** CURRENT_TIME and the like with an optional precision. *)
Definition p_datetime (en : env) (name : string) (ts : list token) : vres :=
  match ts with
  | TSym a :: TInt p :: TSym b :: r =>
      if (String.eqb a "(" && String.eqb b ")")%bool
      then Ok (v_datetime en name (Some (Z.of_N (N_of_str p))), r)
      else Ok (v_datetime en name None, ts)
  | _ => Ok (v_datetime en name None, ts)
  end.

Definition bare_fn (k : string) : option fn :=
  if String.eqb k "CURRENT_USER" then Some FCurrentUser
  else if String.eqb k "CURRENT_CATALOG" then Some FCurrentCatalog
  else if String.eqb k "CURRENT_SCHEMA" then Some FCurrentSchema
  else if String.eqb k "CURRENT_PATH" then Some FCurrentPath else None.

(** NORMALIZE after the name: the form is read but its visitor returns [None]. *)
Definition p_normalize (pv : parser) (ts : list token) : vres :=
  let* r := need (eat_sym "(" ts) in
  let* (e, r1) := pv r in
  let* r2 := match eat_sym "," r1 with
             | Some (TKw k _ :: r2) =>
                 if mem k ["NFD"; "NFC"; "NFKD"; "NFKC"] then Ok r2 else Err SyntaxErr
             | Some _ => Err SyntaxErr
             | None => Ok r1
             end in
  let* r3 := need (eat_sym ")" r2) in
  Ok ((let* x := e in mk (NNormalize x None)), r3).

(** Alternatives without a visitor, after their name.  [visitChildren] of the
    base class visits every child and returns the result of the last one, the
    closing parenthesis: [None]. *)
Fixpoint none_after {A} (l : list (result A)) : result node :=
  match l with
  | [] => Ok NNone
  | a :: l => let* _ := a in none_after l
  end.
Definition p_close (l : list (result node)) (ts : list token) : vres :=
  let* r := need (eat_sym ")" ts) in Ok (none_after l, r).
(** SqlBase.g4 488. *)
Definition p_position (pv : parser) (ts : list token) : vres :=
  let* r := need (eat_sym "(" ts) in
  let* (a, r1) := pv r in
  let* r2 := need (eat_kw "IN" r1) in
  let* (b, r3) := pv r2 in p_close [a; b] r3.
(** SqlBase.g4 521-523 and 331-335: the inside of TRIM; [spec] says that
    LEADING, TRAILING or BOTH has been read, in which case FROM must come. *)
Definition p_trim_rest (pv : parser) (spec : bool) (ts : list token) : vres :=
  match eat_kw "FROM" ts with
  | Some r => let* (s, r1) := pv r in p_close [s] r1
  | None =>
      let* (a, r) := pv ts in
      match eat_kw "FROM" r with
      | Some r1 => let* (s, r2) := pv r1 in p_close [a; s] r2
      | None =>
          if spec then Err SyntaxErr
          else match eat_sym "," r with
               | Some r1 => let* (c, r2) := pv r1 in p_close [a; c] r2
               | None => p_close [a] r
               end
      end
  end.
Definition trims (ts : list token) : option (list token) :=
  match ts with
  | TKw k _ :: r => if mem k ["LEADING"; "TRAILING"; "BOTH"] then Some r else None
  | _ => None
  end.
Definition p_trim (pv : parser) (ts : list token) : vres :=
  let* r := need (eat_sym "(" ts) in
  match trims r with
  | Some r1 => orelse (p_trim_rest pv true r1) (fun _ => p_trim_rest pv false r)
  | None => p_trim_rest pv false r
  end.
(** SqlBase.g4 524. *)
Definition p_substring (pv : parser) (ts : list token) : vres :=
  let* r := need (eat_sym "(" ts) in
  let* (a, r1) := pv r in
  let* r2 := need (eat_kw "FROM" r1) in
  let* (b, r3) := pv r2 in
  match eat_kw "FOR" r3 with
  | Some r4 => let* (c, r5) := pv r4 in p_close [a; b; c] r5
  | None => p_close [a; b] r3
  end.
(** SqlBase.g4 526; the identifier is visited. *)
Definition p_extract (pv : parser) (ts : list token) : vres :=
  let* r := need (eat_sym "(" ts) in
  let* (i, r1) := p_ident r in
  let* r2 := need (eat_kw "FROM" r1) in
  let* (e, r3) := pv r2 in
  let* r4 := need (eat_sym ")" r3) in
  Ok ((let* _ := visit_ident i in none_after [e]), r4).
(** SqlBase.g4 528; the names are visited. *)
Definition p_grouping_args : nat -> list pident -> parser :=
  fix go (k : nat) (l : list pident) (ts : list token) : vres :=
    match k with
    | O => Err OutOfFuel
    | S k =>
        let* (n, r) := p_qname ts in
        match eat_sym "," r with
        | Some r1 => go k (l ++ n)%list r1
        | None =>
            let* r1 := need (eat_sym ")" r) in Ok (none_after (map visit_ident (l ++ n)%list), r1)
        end
    end.
Definition p_grouping (ts : list token) : vres :=
  let* r := need (eat_sym "(" ts) in
  match eat_sym ")" r with
  | Some r1 => Ok (Ok NNone, r1)
  | None => p_grouping_args (S (length r)) [] r
  end.

(** * Forms that are only visited

    SqlBase.g4 408-444, 529-606: convert.py has no visitor for the JSON functions and
    for the table functions nor for their parts, so [visitChildren] of the base class
    visits what is inside, in order, and returns the result of the last child, the
    closing parenthesis: [None].  A shape is the right-hand side of a rule. *)
Inductive skeleton :=
| HNil
| HKw (k : string)
| HSym (s : string)
| HExpr
| HType
| HText
| HName
| HPath
| HSort
| HQuery
| HEnds
| HParen (a : skeleton)
| HThen (a b : skeleton)
| HMaybe (a : skeleton)
| HEither (a b : skeleton)
| HCommas (a : skeleton).
(** The rules of parsing a shape: an optional part is taken if it can be, the first
    of two alternatives that can be read is read.  [HEnds] takes nothing: it asks for
    what may come after an argument of a table function or after its partition. *)
Fixpoint p_shape (pe pq : parser) (h : skeleton) (ts : list token) {struct h} : pres (result unit) :=
  match h with
  | HNil => Ok (Ok tt, ts)
  | HKw k => let* r := need (eat_kw k ts) in Ok (Ok tt, r)
  | HSym s => let* r := need (eat_sym s ts) in Ok (Ok tt, r)
  | HExpr => let* (e, r) := pe ts in Ok ((let* _ := e in Ok tt), r)
  | HType => let* (t, r) := p_type (type_fuel ts) ts in Ok ((let* _ := visit_type t in Ok tt), r)
  | HText =>
      match p_string ts with
      | Some (s, r) => Ok ((let* _ := s in Ok tt), r)
      | None => Err SyntaxErr
      end
  | HName => let* (i, r) := p_ident ts in Ok ((let* _ := visit_ident i in Ok tt), r)
  | HPath => let* (l, r) := p_qname ts in Ok ((let* _ := v_names l in Ok tt), r)
  | HSort => let* (o, r) := p_sort pe ts in Ok ((let* _ := o in Ok tt), r)
  | HQuery => let* (q, r) := pq ts in Ok ((let* _ := q in Ok tt), r)
  | HEnds =>
      match ts with
      | TSym s :: _ => if (String.eqb s "," || String.eqb s ")")%bool then Ok (Ok tt, ts) else Err SyntaxErr
      | TKw k _ :: _ => if mem k ["COPARTITION"; "PRUNE"; "KEEP"; "ORDER"] then Ok (Ok tt, ts) else Err SyntaxErr
      | _ => Err SyntaxErr
      end
  | HParen a =>
      let* r := need (eat_sym "(" ts) in
      let* (v, r1) := p_shape pe pq a r in
      let* r2 := need (eat_sym ")" r1) in Ok (v, r2)
  | HThen a b =>
      let* (x, r) := p_shape pe pq a ts in
      let* (y, r1) := p_shape pe pq b r in Ok ((let* _ := x in y), r1)
  | HMaybe a => orelse (p_shape pe pq a ts) (fun _ => Ok (Ok tt, ts))
  | HEither a b => orelse (p_shape pe pq a ts) (fun _ => p_shape pe pq b ts)
  | HCommas a => let* (l, r) := sep (p_shape pe pq a) ts in Ok ((let* _ := l in Ok tt), r)
  end.
Fixpoint h_seq (l : list skeleton) : skeleton := match l with [] => HNil | [a] => a | a :: l => HThen a (h_seq l) end.
Definition h_words (l : list string) : skeleton := h_seq (map HKw l).
Fixpoint h_any (a : skeleton) (l : list skeleton) : skeleton := match l with [] => a | b :: l => HEither a (h_any b l) end.
(** SqlBase.g4 570-572 *)
Definition h_json : skeleton :=
  h_seq [HKw "JSON"; HMaybe (HThen (HKw "ENCODING") (h_any (HKw "UTF8") [HKw "UTF16"; HKw "UTF32"]))].
Definition h_format : skeleton := HMaybe (HThen (HKw "FORMAT") h_json).
(** SqlBase.g4 566-568 *)
Definition h_json_value : skeleton := HThen HExpr h_format.
(** SqlBase.g4 561-564, 574-576 *)
Definition h_path_invocation : skeleton :=
  h_seq [h_json_value; HSym ","; HText;
         HMaybe (HThen (HKw "PASSING") (HCommas (h_seq [h_json_value; HKw "AS"; HName])))].
(** SqlBase.g4 578-583 *)
Definition h_exists_error : skeleton := h_any (HKw "TRUE") [HKw "FALSE"; HKw "UNKNOWN"; HKw "ERROR"].
(** SqlBase.g4 585-589 *)
Definition h_value_behavior : skeleton := h_any (HKw "ERROR") [HKw "NULL"; HThen (HKw "DEFAULT") HExpr].
(** SqlBase.g4 591-594 *)
Definition h_wrapper : skeleton :=
  HEither (HThen (HKw "WITHOUT") (HMaybe (HKw "ARRAY")))
          (h_seq [HKw "WITH"; HMaybe (HEither (HKw "CONDITIONAL") (HKw "UNCONDITIONAL")); HMaybe (HKw "ARRAY")]).
(** SqlBase.g4 596-601 *)
Definition h_query_behavior : skeleton :=
  h_any (HKw "ERROR") [HKw "NULL"; h_words ["EMPTY"; "ARRAY"]; h_words ["EMPTY"; "OBJECT"]].
(** SqlBase.g4 603-606 *)
Definition h_member : skeleton :=
  h_any (h_seq [HKw "KEY"; HExpr; HKw "VALUE"; h_json_value])
    [h_seq [HExpr; HKw "VALUE"; h_json_value]; h_seq [HExpr; HSym ":"; h_json_value]].
Definition h_returning : skeleton := h_seq [HKw "RETURNING"; HType; h_format].
Definition h_nulls : skeleton := HMaybe (HEither (h_words ["NULL"; "ON"; "NULL"]) (h_words ["ABSENT"; "ON"; "NULL"])).
Definition h_unique (k : string) : skeleton := h_seq [HKw k; HKw "UNIQUE"; HMaybe (HKw "KEYS")].
(** SqlBase.g4 529-558, what is in the parentheses; the optional first part of an
    object and of an array gives two alternatives. *)
Definition json_shapes (k : string) : list skeleton :=
  if String.eqb k "JSON_EXISTS" then
    [HThen h_path_invocation (HMaybe (HThen h_exists_error (h_words ["ON"; "ERROR"])))]
  else if String.eqb k "JSON_VALUE" then
    [h_seq [h_path_invocation; HMaybe (HThen (HKw "RETURNING") HType);
            HMaybe (HThen h_value_behavior (h_words ["ON"; "EMPTY"]));
            HMaybe (HThen h_value_behavior (h_words ["ON"; "ERROR"]))]]
  else if String.eqb k "JSON_QUERY" then
    [h_seq [h_path_invocation; HMaybe h_returning; HMaybe (HThen h_wrapper (HKw "WRAPPER"));
            HMaybe (h_seq [HEither (HKw "KEEP") (HKw "OMIT"); HKw "QUOTES"; HMaybe (h_words ["ON"; "SCALAR"; "STRING"])]);
            HMaybe (HThen h_query_behavior (h_words ["ON"; "EMPTY"]));
            HMaybe (HThen h_query_behavior (h_words ["ON"; "ERROR"]))]]
  else if String.eqb k "JSON_OBJECT" then
    [h_seq [HCommas h_member; h_nulls; HMaybe (HEither (h_unique "WITH") (h_unique "WITHOUT")); HMaybe h_returning];
     HMaybe h_returning]
  else if String.eqb k "JSON_ARRAY" then
    [h_seq [HCommas h_json_value; h_nulls; HMaybe h_returning]; HMaybe h_returning]
  else [].
Fixpoint p_shapes (pe pq : parser) (l : list skeleton) (ts : list token) : vres :=
  match l with
  | [] => Err SyntaxErr
  | h :: l =>
      orelse (let* (v, r) := p_shape pe pq h ts in
              let* r1 := need (eat_sym ")" r) in Ok ((let* _ := v in Ok NNone), r1))
             (fun _ => p_shapes pe pq l ts)
  end.
Definition json_words := ["JSON_EXISTS"; "JSON_VALUE"; "JSON_QUERY"; "JSON_OBJECT"; "JSON_ARRAY"].
Definition p_json (pe pq : parser) (k : string) (ts : list token) : vres :=
  let* r := need (eat_sym "(" ts) in p_shapes pe pq (json_shapes k) r.

(** SqlBase.g4 421-431: a word that may be a name is an alias unless it begins one of
    the clauses; the words after it, BY and WHEN, cannot follow an alias. *)
Definition h_partition : skeleton :=
  h_seq [HKw "PARTITION"; HKw "BY"; h_any (HThen (HParen HNil) HEnds) [HThen (HParen (HCommas HExpr)) HEnds; HExpr]].
Definition h_prune : skeleton := HEither (h_words ["PRUNE"; "WHEN"; "EMPTY"]) (h_words ["KEEP"; "WHEN"; "EMPTY"]).
Definition h_sorted : skeleton := h_seq [HKw "ORDER"; HKw "BY"; HEither (HThen (HParen (HCommas HSort)) HEnds) HSort].
Definition h_argument_relation : skeleton :=
  HThen (HKw "TABLE") (HEither (HParen HPath) (HParen HQuery)).
Definition h_table_alias : skeleton := h_seq [HMaybe (HKw "AS"); HName; HMaybe (HParen (HCommas HName))].
Definition h_table_argument : skeleton :=
  HThen h_argument_relation
    (h_any (h_seq [h_partition; HMaybe h_prune; HMaybe h_sorted])
      [HThen h_prune (HMaybe h_sorted); h_sorted;
       h_seq [h_table_alias; HMaybe h_partition; HMaybe h_prune; HMaybe h_sorted]; HNil]).
(** SqlBase.g4 433-440 *)
Definition h_descriptor : skeleton :=
  HEither (HThen (HKw "DESCRIPTOR") (HParen (HCommas (HThen HName (HMaybe HType)))))
          (HThen (HKw "CAST") (HParen (h_words ["NULL"; "AS"; "DESCRIPTOR"]))).
(** SqlBase.g4 417-419 *)
Definition h_table_value : skeleton :=
  h_any (HThen h_table_argument HEnds) [HThen h_descriptor HEnds; HThen HExpr HEnds].
Definition h_function_argument : skeleton :=
  HEither (h_seq [HName; HSym "=>"; h_table_value]) h_table_value.
(** SqlBase.g4 442-444 *)
Definition h_copartition : skeleton :=
  HThen (HKw "COPARTITION") (HCommas (HParen (h_seq [HPath; HSym ","; HCommas HPath]))).
(** SqlBase.g4 412-415: the optional list of arguments gives two alternatives. *)
Definition h_table_call : skeleton :=
  HThen HPath (HEither (HParen (HThen (HCommas h_function_argument) (HMaybe h_copartition)))
                       (HParen (HMaybe h_copartition))).

(** Alternatives that start with an identifier [i]. *)
Definition p_ident_first (en : env) (pe : parser) (i : pident) (ts r : list token) : vres :=
  match p_string r with
  | Some (s, r1) => Ok (v_type_ctor i s, r1)
  | None =>
      match eat_sym "->" r with
      | Some r1 => let* (b, r2) := pe r1 in Ok (v_lambda [i] b, r2)
      | None =>
          let* (names, r1) := p_qname ts in
          match eat_sym "(" r1 with
          | Some r2 => p_call en pe names r2
          | None => Ok ((let* n := visit_ident i in mk (NField n TRNone unknown)), r)
          end
      end
  end.

(** Alternatives of [primaryExpression] that start with a keyword; [None] if
    the keyword starts none of its own. *)
Definition p_keyword (en : env) (pe pv pq : parser) (k t : string) (r : list token) : option vres :=
  if String.eqb k "NULL" then Some (Ok (mk (NLit LNone unknown), r))
  else if String.eqb k "TRUE" then Some (Ok (mk (NLit (LBool true) (TSimple SBoolean)), r))
  else if String.eqb k "FALSE" then Some (Ok (mk (NLit (LBool false) (TSimple SBoolean)), r))
  else if String.eqb k "CASE" then Some (p_case pe r)
  else if String.eqb k "CAST" then Some (p_cast pe false r)
  else if String.eqb k "LISTAGG" then
    Some (let* r1 := need (eat_sym "(" r) in p_listagg pe r1)
  else if String.eqb k "NORMALIZE" then Some (p_normalize pv r)
  else if String.eqb k "EXISTS" then
    Some (let* r1 := need (eat_sym "(" r) in
          let* (q, r2) := pq r1 in
          let* r3 := need (eat_sym ")" r2) in
          (* no visitor: [visitChildren] of the base class returns the last
             child's result, that of the closing parenthesis: [None] *)
          Ok ((let* _ := q in Ok NNone), r3))
  else if mem k ["CURRENT_TIME"; "CURRENT_TIMESTAMP"; "LOCALTIME"; "LOCALTIMESTAMP"]
  then Some (p_datetime en t r)
  else if String.eqb k "CURRENT_DATE" then Some (Ok (v_datetime en t None, r))
  else if String.eqb k "TRIM" then Some (p_trim pv r)
  else if String.eqb k "EXTRACT" then Some (p_extract pv r)
  else if String.eqb k "GROUPING" then Some (p_grouping r)
  else if mem k json_words then Some (p_json pe pq k r)
  else match bare_fn k with
       | Some f => Some (Ok (mk (NFunc f [] no_fopts), r))
       | None => None
       end.

(** Alternatives that start with a keyword that is also an identifier, to be
    tried before those of an identifier. *)
Definition p_soft (en : env) (pe pv : parser) (k : string) (r : list token) : vres :=
  if String.eqb k "INTERVAL" then p_interval r
  else if String.eqb k "DOUBLE" then
    match eat_kw "PRECISION" r with
    | Some r1 => match p_string r1 with
                 | Some (s, r2) => Ok ((let* _ := s in Err TypeError), r2)
                 | None => Err SyntaxErr
                 end
    | None => Err SyntaxErr
    end
  else if String.eqb k "ROW" then
    let* r1 := need (eat_sym "(" r) in
    let* (l, r2) := sep pe r1 in
    let* r3 := need (eat_sym ")" r2) in
    Ok ((let* l := l in mk (NRow l)), r3)
  else if String.eqb k "ARRAY" then
    let* r1 := need (eat_sym "[" r) in
    match eat_sym "]" r1 with
    | Some r2 => Ok (mk (NArray []), r2)
    | None =>
        let* (l, r2) := sep pe r1 in
        let* r3 := need (eat_sym "]" r2) in
        Ok ((let* l := l in mk (NArray l)), r3)
    end
  else if String.eqb k "TRY_CAST" then p_cast pe true r
  else if String.eqb k "POSITION" then p_position pv r
  else if mem k ["RUNNING"; "FINAL"] then
    (* a processing mode: [visitFunctionCall] asserts that there is none before
       it visits anything (convert.py 784-786) *)
    let* (names, r1) := p_qname r in
    let* r2 := need (eat_sym "(" r1) in
    let* (_, r3) := p_call en pe names r2 in Ok (Err AssertionError, r3)
  else Err SyntaxErr.
(** SUBSTRING(x FROM ...), tried after a function call. *)
Definition p_last (pv : parser) (ts : list token) : vres :=
  match ts with
  | TKw k _ :: r => if String.eqb k "SUBSTRING" then p_substring pv r else Err SyntaxErr
  | _ => Err SyntaxErr
  end.
(** Identifiers and the keywords that serve as such. *)
Definition p_name_first (en : env) (pe pv : parser) (ts : list token) : vres :=
  let* (i, r) := p_ident ts in
  if measure_ahead r then Err NotModelled
  else orelse (p_ident_first en pe i ts r)
              (fun _ => p_last pv ts).

(** SqlBase.g4 478-559, the alternatives that are not left-recursive. *)
Definition prim_head (en : env) (pe pv pq : parser) (ts : list token) : vres :=
  match ts with
  | TInt _ :: r | TDec _ :: r | TDbl _ :: r =>
      match v_number false (hd (TSym "") ts) with Some x => Ok (x, r) | None => Err SyntaxErr end
  | TSym s :: r =>
      if String.eqb s "-" then
        match r with
        | t :: r1 => match v_number true t with Some x => Ok (x, r1) | None => Err SyntaxErr end
        | [] => Err SyntaxErr
        end
      else if String.eqb s "(" then p_paren pe pq r
      else if String.eqb s "?" then Ok (Err NotImplementedError, r)
      else Err SyntaxErr
  | TString _ :: _ | TUniString _ :: _ =>
      match p_string ts with
      | Some (s, r) => Ok ((let* v := s in mk (NLit (LStr v) (TVarchar (Some (zlen v))))), r)
      | None => Err SyntaxErr
      end
  | TBinary _ :: r => Ok (Ok NNone, r) (* no visitor: [None] *)
  | TKw k t :: r =>
      match p_keyword en pe pv pq k t r with
      | Some v => v
      | None => orelse (p_soft en pe pv k r) (fun _ => p_name_first en pe pv ts)
      end
  | _ => p_name_first en pe pv ts
  end.

(** Subscripts and dereferences after a primary expression. *)
Definition post_loop (pv : parser) : nat -> result node -> parser :=
  fix go (k : nat) (acc : result node) (ts : list token) : vres :=
    match k with
    | O => Err OutOfFuel
    | S k =>
        match ts with
        | TSym s :: r =>
            if String.eqb s "[" then
              let* (i, r1) := pv r in
              let* r2 := need (eat_sym "]" r1) in
              go k (let* x := acc in let* y := i in mk (NSubscript x y)) r2
            else if String.eqb s "." then
              match p_ident r with
              | Ok (i, r1) => go k (v_dereference acc i) r1
              | Err _ => Ok (acc, ts)
              end
            else Ok (acc, ts)
        | _ => Ok (acc, ts)
        end
    end.
Definition prim_body (en : env) (pe pv pq : parser) (ts : list token) : vres :=
  let* (a, r) := prim_head en pe pv pq ts in
  post_loop pv (S (length r)) a r.

(** * Queries *)

(** Words that may follow a relation or a selected expression although they
    are identifiers as well. *)
Definition clause_ahead (ts : list token) : bool :=
  match ts with
  | TKw k _ :: r =>
      if String.eqb k "LIMIT" then
        match r with
        | TInt _ :: _ => true
        | TSym s :: _ => String.eqb s "?"
        | TKw a _ :: _ => String.eqb a "ALL"
        | _ => false
        end
      else if String.eqb k "OFFSET" then
        match r with TInt _ :: _ => true | TSym s :: _ => String.eqb s "?" | _ => false end
      else if String.eqb k "FETCH" then
        match r with TKw a _ :: _ => mem a ["FIRST"; "NEXT"] | _ => false end
      else if String.eqb k "WINDOW" then
        match p_ident r with
        | Ok (_, r1) => match eat_kw "AS" r1 with Some _ => true | None => false end
        | Err _ => false
        end
      else if String.eqb k "TABLESAMPLE" then
        match r with TKw a _ :: _ => mem a ["BERNOULLI"; "SYSTEM"] | _ => false end
      else false
  | _ => false
  end.
(** [(AS? identifier)?] *)
Definition p_alias (ts : list token) : pres (option pident) :=
  match eat_kw "AS" ts with
  | Some r => let* (i, r1) := p_ident r in Ok (Some i, r1)
  | None =>
      if clause_ahead ts then Ok (None, ts)
      else match p_ident ts with
           | Ok (i, r) => Ok (Some i, r)
           | Err _ => Ok (None, ts)
           end
  end.
(** SqlBase.g4 399-401. *)
Definition p_columns (ts : list token) : pres (list pident) :=
  let* r := need (eat_sym "(" ts) in
  let* (l, r1) := p_idents r in
  let* r2 := need (eat_sym ")" r1) in Ok (l, r2).
Definition p_columns_opt (ts : list token) : pres (list pident) :=
  match eat_sym "(" ts with Some _ => p_columns ts | None => Ok ([], ts) end.

(** SqlBase.g4 293-297, convert.py 945-952 and 1000-1016.  The tokens tell
    [x.*] from an expression: an expression never stops before '.'. *)
Definition v_select_all (b : result node) (cols : option (list pident)) : result node :=
  let* x := b in
  let* star := match x with
               | NField n _ _ => mk (NStar (TRStr n) unknown)
               | NNone => mk (NStar TRNone unknown)
               | _ => mk (NStar (TRVal x) unknown)
               end in
  match cols with
  | None => Ok star
  | Some l => let* ns := v_names l in mk (NAliasedStar star ns)
  end.
Definition v_select_single (e : result node) (alias : option pident) : result node :=
  let* x := e in
  match alias with
  | None => Ok x
  | Some i => let* a := visit_ident i in mk (NAliased x a)
  end.
Definition p_select_item (pe pp : parser) (ts : list token) : vres :=
  match eat_sym "*" ts with
  | Some r => Ok (mk (NStar TRNone unknown), r)
  | None =>
      let all (_ : unit) :=
        let* (b, r) := pp ts in
        let* r1 := need (eat_sym "." r) in
        let* r2 := need (eat_sym "*" r1) in
        match eat_kw "AS" r2 with
        | Some r3 => let* (l, r4) := p_columns r3 in Ok (v_select_all b (Some l), r4)
        | None => Ok (v_select_all b None, r2)
        end in
      let* (e, r) := pe ts in
      match eat_sym "." r with
      | Some _ => all tt
      | None => let* (a, r1) := p_alias r in Ok (v_select_single e a, r1)
      end
  end.

(** SqlBase.g4 261-271, convert.py 1172-1193.  '(' ... ')' is a grouping set
    unless an operator follows, which makes it part of an expression. *)
Definition continues (ts : list token) : bool :=
  match ts with
  | TSym s :: _ =>
      (mem s ["["; "."; "->"] || match vop_sym s with Some _ => true | None => false end
       || match cmp_sym s with Some _ => true | None => false end)%bool
  | TKw k _ :: _ => (mem k ["AND"; "OR"; "NOT"; "IS"; "BETWEEN"; "IN"; "LIKE"] || at_zone ts)%bool
  | _ => false
  end.
Definition p_exprs_opt (pe : parser) (ts : list token) : pres (result (list node)) :=
  match eat_sym ")" ts with Some _ => Ok (Ok [], ts) | None => sep pe ts end.
Definition p_gset (pe : parser) (ts : list token) : pres (result (list node)) :=
  let single (_ : unit) := let* (e, r) := pe ts in Ok ((let* x := e in Ok [x]), r) in
  match eat_sym "(" ts with
  | None => single tt
  | Some r =>
      orelse (let* (l, r1) := p_exprs_opt pe r in
              let* r2 := need (eat_sym ")" r1) in
              if continues r2 then Err SyntaxErr else Ok (l, r2))
             single
  end.
Definition p_parenthesised {A} (p : list token -> pres A) (ts : list token) : pres A :=
  let* r := need (eat_sym "(" ts) in
  let* (a, r1) := p r in
  let* r2 := need (eat_sym ")" r1) in Ok (a, r2).
Definition valid (e : node) : result unit := let* _ := check e in Ok tt.
Definition v_group {A} (f : A -> group node) (x : result A) : result (group node) :=
  let* l := x in
  let g := f l in
  let* _ := group_ok valid g in Ok g.
Definition p_group (pe : parser) (ts : list token) : pres (result (group node)) :=
  let plain (_ : unit) := let* (l, r) := p_gset pe ts in Ok (v_group (@GSet node) l, r) in
  match ts with
  | TKw k _ :: r =>
      if String.eqb k "ROLLUP" then
        let* (l, r1) := p_parenthesised (p_exprs_opt pe) r in Ok (v_group (@GRollup node) l, r1)
      else if String.eqb k "CUBE" then
        let* (l, r1) := p_parenthesised (p_exprs_opt pe) r in Ok (v_group (@GCube node) l, r1)
      else if String.eqb k "GROUPING" then
        match eat_kw "SETS" r with
        | Some r1 =>
            let* (l, r2) := p_parenthesised (sep (p_gset pe)) r1 in
            Ok (v_group (@GSets node) l, r2)
        | None => plain tt
        end
      else plain tt
  | _ => plain tt
  end.
Definition v_groupby (q : option string) (l : result (list (group node))) : result (groupby node) :=
  let* gs := l in
  let* d := match q with None => Ok false | Some t => v_quant t end in
  let g := mkG gs d in
  let* _ := groupby_ok valid g in Ok g.
(** The quantifier before grouping elements: ALL may also be followed by
    ROLLUP or CUBE, which start no expression. *)
Definition p_group_quant (ts : list token) : option string * list token :=
  match ts with
  | TKw k t :: ((TKw w _ :: _) as r) =>
      if (String.eqb k "ALL" && mem w ["ROLLUP"; "CUBE"])%bool then (Some t, r) else p_quant ts
  | _ => p_quant ts
  end.
Definition p_groupby (pe : parser) (ts : list token) : pres (result (groupby node)) :=
  let '(q, r) := p_group_quant ts in
  let* (l, r1) := sep (p_group pe) r in Ok (v_groupby q l, r1).

(** SqlBase.g4 273-275. *)
Definition p_windef (pe : parser) (ts : list token) : pres (result (string * window node)) :=
  let* (i, r) := p_ident ts in
  let* r1 := need (eat_kw "AS" r) in
  let* (w, r2) := p_parenthesised (p_winspec pe) r1 in
  Ok ((let* n := visit_ident i in let* w := w in Ok (n, w)), r2).

(** An optional clause introduced by a keyword. *)
Definition p_clause {A} (k : string) (p : list token -> pres A) (ts : list token) : pres (option A) :=
  match eat_kw k ts with
  | Some r => let* (a, r1) := p r in Ok (Some a, r1)
  | None => Ok (None, ts)
  end.
Definition after_by {A} (p : list token -> pres A) (ts : list token) : pres A :=
  let* r := need (eat_kw "BY" ts) in p r.

(** convert.py 1269-1304. *)
Definition drop_absent (x : option node) : option node :=
  match x with Some e => opt_node e | None => None end.
Definition v_select (q : option string) (items : result (list node))
           (from : option (result (list node))) (wh : option (result node))
           (gb : option (result (groupby node))) (hv : option (result node))
           (ws : option (result (list (string * window node)))) (from_count : nat) : result node :=
  let* items := items in
  let* _ := mk (NSelect items None None None None false [] no_qattrs) in
  let* fr := match from with
             | None => Ok None
             | Some l => if Nat.ltb 1 from_count then Err NotImplementedError
                         else let* l := l in Ok (hd_error l)
             end in
  let* d := match q with None => Ok false | Some t => v_quant t end in
  let* wh := seq_opt wh in
  let* hv := seq_opt hv in
  let* gb := seq_opt gb in
  let* ws := seq_opt ws in
  mk (NSelect items (drop_absent fr) (drop_absent wh) gb (drop_absent hv) d
              (match ws with None => [] | Some l => dict_of l end) no_qattrs).

(** [relation (',' relation)*]; the count matters since more than one raises
    before any is visited. *)
Definition p_from (prel : parser) : nat -> list token -> pres (result (list node) * nat) :=
  fix go (k : nat) (ts : list token) : pres (result (list node) * nat) :=
    match k with
    | O => Err OutOfFuel
    | S k =>
        let* (a, r) := prel ts in
        match eat_sym "," r with
        | Some r1 =>
            let* (ln, r2) := go k r1 in
            let '(l, n) := ln in
            Ok ((let* x := a in let* y := l in Ok (x :: y)), S n, r2)
        | None => Ok ((let* x := a in Ok [x]), 1, r)
        end
    end.

(** SqlBase.g4 248-255 after SELECT. *)
Definition p_select (pe pp prel : parser) (ts : list token) : vres :=
  let '(q, r) := p_quant ts in
  let* (items, r1) := sep (p_select_item pe pp) r in
  let* (from, r2) := p_clause "FROM" (fun ts => p_from prel (S (length ts)) ts) r1 in
  let* (wh, r3) := p_clause "WHERE" pe r2 in
  let* (gb, r4) := p_clause "GROUP" (after_by (p_groupby pe)) r3 in
  let* (hv, r5) := p_clause "HAVING" pe r4 in
  let* (ws, r6) := if clause_ahead r5 then p_clause "WINDOW" (sep (p_windef pe)) r5
                   else Ok (None, r5) in
  Ok (v_select q items (match from with None => None | Some (l, _) => Some l end) wh gb hv ws
               (match from with None => 0 | Some (_, n) => n end), r6).

(** SqlBase.g4 237-242, convert.py 298-309; '(' queryNoWith ')' has no visitor:
    [visitChildren] returns the result of the closing parenthesis. *)
Definition p_query_primary (pe pp prel pqn : parser) (ts : list token) : vres :=
  match ts with
  | TSym s :: r =>
      if String.eqb s "(" then
        let* (q, r1) := pqn r in
        let* r2 := need (eat_sym ")" r1) in Ok ((let* _ := q in Ok NNone), r2)
      else Err SyntaxErr
  | TKw k _ :: r =>
      if String.eqb k "SELECT" then p_select pe pp prel r
      else if String.eqb k "TABLE" then
        let* (l, r1) := p_qname r in
        Ok ((let* t := v_table l in mk (NTableQuery t no_qattrs)), r1)
      else if String.eqb k "VALUES" then
        let* (l, r1) := sep pe r in
        Ok ((let* l := l in mk (NValues l no_qattrs)), r1)
      else Err SyntaxErr
  | _ => Err SyntaxErr
  end.

(** SqlBase.g4 231-235, convert.py 239-254. *)
Definition set_kw (k : string) : option (nat * set_op) :=
  if String.eqb k "INTERSECT" then Some (2, OpIntersect)
  else if String.eqb k "UNION" then Some (1, OpUnion)
  else if String.eqb k "EXCEPT" then Some (1, OpExcept) else None.
Definition p_set_quant (ts : list token) : option string * list token :=
  match ts with
  | TKw k t :: r => if mem k ["DISTINCT"; "ALL"] then (Some t, r) else (None, ts)
  | _ => (None, ts)
  end.
Definition v_set (op : set_op) (q : option string) (l r : result node) : result node :=
  let* a := l in
  let* b := r in
  let* d := match q with None => Ok true | Some t => v_quant t end in
  mk (NSetQuery op a b d no_qattrs).
Definition term_loop (pt : nat -> parser) : nat -> nat -> result node -> parser :=
  fix go (k lvl : nat) (acc : result node) (ts : list token) : vres :=
    match k with
    | O => Err OutOfFuel
    | S k =>
        match ts with
        | TKw w _ :: r =>
            match set_kw w with
            | Some (p, op) =>
                if Nat.leb lvl p then
                  let '(q, r1) := p_set_quant r in
                  let* (b, r2) := pt (S p) r1 in go k lvl (v_set op q acc b) r2
                else Ok (acc, ts)
            | None => Ok (acc, ts)
            end
        | _ => Ok (acc, ts)
        end
    end.
Definition term_body (pt : nat -> parser) (pprim : parser) (lvl : nat) (ts : list token) : vres :=
  let* (a, r) := pprim ts in
  term_loop pt (S (length r)) lvl a r.

(** SqlBase.g4 212-229, convert.py 226-236, 257-261, 279-289.  A parameter as a
    row count and a lower-case [all] raise; FETCH is read and ignored. *)
Definition p_row_count (ts : list token) : pres (result Z) :=
  match ts with
  | TInt s :: r => Ok (Ok (Z.of_N (N_of_str s)), r)
  | TSym s :: r => if String.eqb s "?" then Ok (Err AssertionError, r) else Err SyntaxErr
  | _ => Err SyntaxErr
  end.
Definition eat_rows (ts : list token) : option (list token) :=
  match eat_kw "ROW" ts with Some r => Some r | None => eat_kw "ROWS" ts end.
Definition p_offset (ts : list token) : pres (option (result Z)) :=
  match eat_kw "OFFSET" ts with
  | Some r =>
      let* (n, r1) := p_row_count r in
      Ok (Some n, match eat_rows r1 with Some r2 => r2 | None => r1 end)
  | None => Ok (None, ts)
  end.
Definition p_limit (ts : list token) : pres (option (result (option Z))) :=
  match eat_kw "LIMIT" ts with
  | Some r =>
      match r with
      | TKw k t :: r1 =>
          if String.eqb k "ALL"
          then Ok (Some (if String.eqb t "ALL" then Ok None else Err AssertionError), r1)
          else Err SyntaxErr
      | _ => let* (n, r1) := p_row_count r in Ok (Some (let* z := n in Ok (Some z)), r1)
      end
  | None =>
      match eat_kw "FETCH" ts with
      | Some r =>
          let* r1 := match r with
                     | TKw k _ :: r1 => if mem k ["FIRST"; "NEXT"] then Ok r1 else Err SyntaxErr
                     | _ => Err SyntaxErr
                     end in
          let r2 := match p_row_count r1 with Ok (_, r2) => r2 | Err _ => r1 end in
          let* r3 := need (eat_rows r2) in
          match eat_kw "ONLY" r3 with
          | Some r4 => Ok (None, r4)
          | None => let* r4 := need (eat_kw "WITH" r3) in
                    let* r5 := need (eat_kw "TIES" r4) in Ok (None, r5)
          end
      | None => Ok (None, ts)
      end
  end.
Definition v_query_no_with (q : result node) (ob : option (result (list (order node))))
           (off : option (result Z)) (lim : option (result (option Z))) : result node :=
  let* q := q in
  let* q := match ob with
            | None => Ok q
            | Some l => let* l := l in
                        set_q (fun a => mkQ (q_with a) l (q_offset a) (q_limit a)) q
            end in
  let* q := match off with
            | None => Ok q
            | Some n => let* n := n in
                        set_q (fun a => mkQ (q_with a) (q_orderby a) (Some n) (q_limit a)) q
            end in
  match lim with
  | None => Ok q
  | Some n => let* n := n in
              set_q (fun a => mkQ (q_with a) (q_orderby a) (q_offset a) n) q
  end.
Definition qnw_body (pt pe : parser) (ts : list token) : vres :=
  let* (q, r) := pt ts in
  let* (ob, r1) := p_orderby pe r in
  let* (off, r2) := p_offset r1 in
  let* (lim, r3) := p_limit r2 in
  Ok (v_query_no_with q ob off lim, r3).

(** SqlBase.g4 174-180, 284-286; convert.py 195-223. *)
Definition v_named (i : pident) (cols : list pident) (q : result node) : result node :=
  let* n := visit_ident i in
  let* q := q in
  let* cs := v_names cols in
  mk (NAliasedRel q n cs).
Definition p_named (pq : parser) (ts : list token) : vres :=
  let* (i, r) := p_ident ts in
  let* (cols, r1) := p_columns_opt r in
  let* r2 := need (eat_kw "AS" r1) in
  let* (q, r3) := p_parenthesised pq r2 in
  Ok (v_named i cols q, r3).
Definition v_query (rec : bool) (w : option (result (list node))) (q : result node) : result node :=
  let* q := q in
  match w with
  | None => Ok q
  | Some l =>
      let* _ := py_assert (negb rec) in
      let* l := l in
      set_q (fun a => mkQ l (q_orderby a) (q_offset a) (q_limit a)) q
  end.
Definition query_body (pqn pq : parser) (ts : list token) : vres :=
  match eat_kw "WITH" ts with
  | Some r =>
      let '(rec, r1) := match eat_kw "RECURSIVE" r with Some r1 => (true, r1) | None => (false, r) end in
      let* (l, r2) := sep (p_named pq) r1 in
      let* (q, r3) := pqn r2 in
      Ok (v_query rec (Some l) q, r3)
  | None => let* (q, r) := pqn ts in Ok (v_query false None q, r)
  end.

(** * Relations *)

(** SqlBase.g4 403-412, convert.py 1111-1136.  A query in parentheses comes
    first. *)
Definition p_relation_primary (pe pq prel : parser) (ts : list token) : vres :=
  let named (_ : unit) := let* (l, r) := p_qname ts in Ok (v_table l, r) in
  match ts with
  | TSym s :: r =>
      if String.eqb s "(" then
        orelse (let* (q, r1) := pq r in
                let* r2 := need (eat_sym ")" r1) in Ok (q, r2))
               (fun _ => let* (q, r1) := prel r in
                         let* r2 := need (eat_sym ")" r1) in Ok (q, r2))
      else Err SyntaxErr
  | TKw k _ :: r =>
      if String.eqb k "UNNEST" then
        let* (l, r1) := p_parenthesised (sep pe) r in
        match eat_kw "WITH" r1 with
        | Some r2 =>
            let* r3 := need (eat_kw "ORDINALITY" r2) in
            Ok ((let* l := l in mk (NUnnest l true)), r3)
        | None => Ok ((let* l := l in mk (NUnnest l false)), r1)
        end
      else if (String.eqb k "LATERAL" && match eat_sym "(" r with Some _ => true | None => false end)%bool
      then
        let* (q, r1) := p_parenthesised pq r in
        Ok ((let* q := q in mk (NLateral q)), r1)
      else if (String.eqb k "TABLE" && match eat_sym "(" r with Some _ => true | None => false end)%bool
      then let* r1 := need (eat_sym "(" r) in p_shapes pe pq [h_table_call] r1
      else named tt
  | _ => named tt
  end.
(** SqlBase.g4 395-401, convert.py 1139-1153. *)
Definition v_aliased_rel (x : result node) (a : option pident) (cols : list pident) : result node :=
  let* x := x in
  match a with
  | None => Ok x
  | Some i => let* n := visit_ident i in
              let* cs := v_names cols in mk (NAliasedRel x n cs)
  end.
Definition p_aliased (pe pq prel : parser) (ts : list token) : vres :=
  let* (x, r) := p_relation_primary pe pq prel ts in
  let* (a, r1) := p_alias r in
  match a with
  | None => Ok (v_aliased_rel x None [], r1)
  | Some i => let* (cols, r2) := p_columns_opt r1 in Ok (v_aliased_rel x (Some i) cols, r2)
  end.
(** SqlBase.g4 320-331, convert.py 1071-1087: the sample type must be in upper
    case. *)
Definition v_sample_type (t : string) : result sample_type :=
  if String.eqb t "BERNOULLI" then Ok Bernoulli
  else if String.eqb t "SYSTEM" then Ok System else Err KeyError.
Definition p_sampled (pe pq prel : parser) (ts : list token) : vres :=
  let* (x, r) := p_aliased pe pq prel ts in
  if clause_ahead r then
    match eat_kw "TABLESAMPLE" r with
    | Some (TKw _ t :: r1) =>
        let* (p, r2) := p_parenthesised pe r1 in
        Ok ((let* x := x in
             let* st := v_sample_type t in
             let* p := p in mk (NSample x st p)), r2)
    | _ => Ok (x, r)
    end
  else Ok (x, r).

(** SqlBase.g4 308-318, convert.py 1043-1068. *)
Definition eat_outer (ts : list token) : list token :=
  match eat_kw "OUTER" ts with Some r => r | None => ts end.
Definition p_join_type (ts : list token) : join_type * list token :=
  match ts with
  | TKw k _ :: r =>
      if String.eqb k "INNER" then (JInner, r)
      else if String.eqb k "LEFT" then (JLeft, eat_outer r)
      else if String.eqb k "RIGHT" then (JRight, eat_outer r)
      else if String.eqb k "FULL" then (JOuter, eat_outer r)
      else (JInner, ts)
  | _ => (JInner, ts)
  end.
Definition p_criteria (pe : parser) (ts : list token) : pres (result (jcrit node)) :=
  match eat_kw "ON" ts with
  | Some r => let* (e, r1) := pe r in Ok ((let* x := e in Ok (JOn x)), r1)
  | None =>
      let* r := need (eat_kw "USING" ts) in
      let* (l, r1) := p_columns r in
      Ok ((let* ns := v_names l in Ok (JUsing ns)), r1)
  end.
(** SqlBase.g4 299-306, convert.py 1019-1040. *)
Definition join_ahead (ts : list token) : bool :=
  match ts with
  | TKw k _ :: _ => mem k ["CROSS"; "NATURAL"; "JOIN"; "INNER"; "LEFT"; "RIGHT"; "FULL"]
  | _ => false
  end.
Definition v_join (l r : result node) (jt : join_type) (natural : bool)
           (c : option (result (jcrit node))) : result node :=
  let* a := l in
  let* b := r in
  let* c := seq_opt c in
  mk (NJoin a b jt natural c).
Definition rel_loop (pe psampled prel : parser) : nat -> result node -> parser :=
  fix go (k : nat) (acc : result node) (ts : list token) : vres :=
    match k with
    | O => Err OutOfFuel
    | S k =>
        if join_ahead ts then
          match eat_kw "CROSS" ts with
          | Some r =>
              let* r1 := need (eat_kw "JOIN" r) in
              let* (b, r2) := psampled r1 in go k (v_join acc b JCross false None) r2
          | None =>
              match eat_kw "NATURAL" ts with
              | Some r =>
                  let '(jt, r1) := p_join_type r in
                  let* r2 := need (eat_kw "JOIN" r1) in
                  let* (b, r3) := psampled r2 in go k (v_join acc b jt true None) r3
              | None =>
                  let '(jt, r1) := p_join_type ts in
                  let* r2 := need (eat_kw "JOIN" r1) in
                  let* (b, r3) := prel r2 in
                  let* (c, r4) := p_criteria pe r3 in
                  go k (v_join acc b jt false (Some c)) r4
              end
          end
        else Ok (acc, ts)
    end.
Definition relation_body (pe pq prel : parser) (ts : list token) : vres :=
  let* (a, r) := p_sampled pe pq prel ts in
  rel_loop pe (p_sampled pe pq prel) prel (S (length r)) a r.

(** * The grammar

    Every call of a rule takes one unit of fuel. *)
Fixpoint p_bool (en : env) (n : nat) (lvl : nat) (ts : list token) {struct n} : vres :=
  match n with
  | O => Err OutOfFuel
  | S n => bool_body (p_bool en n) (p_value en n 0) (p_query en n) lvl ts
  end
with p_value (en : env) (n : nat) (lvl : nat) (ts : list token) {struct n} : vres :=
  match n with
  | O => Err OutOfFuel
  | S n => value_body (p_value en n) (p_primary en n) lvl ts
  end
with p_primary (en : env) (n : nat) (ts : list token) {struct n} : vres :=
  match n with
  | O => Err OutOfFuel
  | S n => prim_body en (p_bool en n 0) (p_value en n 0) (p_query en n) ts
  end
with p_query (en : env) (n : nat) (ts : list token) {struct n} : vres :=
  match n with
  | O => Err OutOfFuel
  | S n => query_body (p_query_no_with en n) (p_query en n) ts
  end
with p_query_no_with (en : env) (n : nat) (ts : list token) {struct n} : vres :=
  match n with
  | O => Err OutOfFuel
  | S n => qnw_body (p_term en n 0) (p_bool en n 0) ts
  end
with p_term (en : env) (n : nat) (lvl : nat) (ts : list token) {struct n} : vres :=
  match n with
  | O => Err OutOfFuel
  | S n => term_body (p_term en n)
             (p_query_primary (p_bool en n 0) (p_primary en n) (p_relation en n)
                              (p_query_no_with en n)) lvl ts
  end
with p_relation (en : env) (n : nat) (ts : list token) {struct n} : vres :=
  match n with
  | O => Err OutOfFuel
  | S n => relation_body (p_bool en n 0) (p_query en n) (p_relation en n) ts
  end.

(** A chain of rules descends at most seven calls per token. *)
Definition parse_fuel (ts : list token) : nat := 8 * length ts + 8.

(** convert.py 104-113: [expression_from_sql] uses the rule
    [standaloneExpression], which ends with EOF; [query_from_sql] uses [query],
    which does not. *)
Definition expression_of_tokens (en : env) (ts : list token) : result node :=
  let* (v, r) := p_bool en (parse_fuel ts) 0 ts in
  match r with
  | [] => v
  | _ => Err SyntaxErr
  end.
Definition expression_from_sql (en : env) (s : string) : result node :=
  expression_of_tokens en (lex s).
Definition query_of_tokens (en : env) (ts : list token) : result node :=
  let* (v, _) := p_query en (parse_fuel ts) ts in v.
Definition query_from_sql (en : env) (s : string) : result node :=
  query_of_tokens en (lex s).
