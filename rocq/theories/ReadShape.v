(** What an object that comes from a text looks like (for C58): a property of each object
    and its direct parts.  Nothing here mentions the parser. *)
From Coq Require Import String List ZArith NArith Bool.
From Verif Require Import PyStr Types Inference Lexer TypeParser TypeRoundTrip Functions Ast Sql
  Tokens TextFacts ReadTokens ParseForms Good.
Import ListNotations.
Open Scope nat_scope.
Open Scope string_scope.
Open Scope list_scope.

(** * Kinds of objects *)

(** A value, or Python's [None] where a value is expected. *)
Definition is_term (e : node) : bool :=
  (is_expr e || is_query e || match e with NNone | NInterval _ _ _ | NNormalize _ _ => true | _ => false end)%bool.
(** What can be selected. *)
Definition is_selected (e : node) : bool :=
  (is_term e || match e with NAliased _ _ | NStar _ _ | NAliasedStar _ _ => true | _ => false end)%bool.
(** A query, or [None] in its place. *)
Definition is_select (e : node) : bool := (is_query e || is_none e)%bool.
(** What can stand in FROM. *)
Definition is_source (e : node) : bool :=
  (is_select e || match e with
                  | NTable _ _ _ | NAliasedRel _ _ _ | NJoin _ _ _ _ _ | NUnnest _ _ | NLateral _
                  | NSample _ _ _ => true
                  | _ => false
                  end)%bool.
(** A named query of a WITH clause. *)
Definition is_named (e : node) : bool :=
  match e with NAliasedRel q _ _ => is_select q | _ => false end.
Definition all (f : node -> bool) (l : list node) : Prop := Forall (fun x => f x = true) l.
Definition opt_is (f : node -> bool) (o : option node) : Prop :=
  match o with None => True | Some x => f x = true /\ is_none x = false end.

(** * Leaves *)

(** The text of a float: digits, a point and digits; or with an exponent of at least two digits; or
    infinity. *)
Definition some_digits (s : string) : Prop := s <> "" /\ digits_only s.
Definition float_text (s : string) : Prop :=
  exists sign body, s = (sign ++ body)%string /\ (sign = "" \/ sign = "-")
  /\ (body = "inf"
      \/ (exists i f, body = (i ++ "." ++ f)%string /\ some_digits i /\ some_digits f)
      \/ (exists i f e x, body = (i ++ f ++ "e" ++ e ++ x)%string /\ some_digits i
          /\ (f = "" \/ exists g, f = ("." ++ g)%string /\ some_digits g)
          /\ (e = "+" \/ e = "-") /\ some_digits x)).
(** Literals have the type that is inferred from their value; a decimal the one of its digits
    without the sign. *)
(** A text between quotes; a unicode string can contain anything. *)
Definition quoted_text_in {Lx : lexis} (s : string) : Prop := uni = false -> string_text s.
Definition lit_read {Lx : lexis} (l : lit) (t : dtype) : Prop :=
  match l with
  | LNone => t = unknown
  | LBool _ => t = boolean
  | LInt z => t = infer_integral z
  | LStr s => quoted_text_in s /\ t = TVarchar (Some (zlen s))
  | LDec d =>
      exists coef places,
        let plain := mkDec false coef (- Z.of_nat places) in
        infer_decimal plain = Ok t /\ (d = plain \/ d = dec_neg plain)
  | LFloat r => t = double /\ dbl = true /\ float_text r
  end.
(** The table of a column or a star. *)
Definition tref_read (tr : tref node) : Prop :=
  match tr with
  | TRNone => True
  | TRStr s => name_text s
  | TRVal v => is_term v = true /\ is_field v = false /\ is_none v = false
  end.
(** A function that a call can name, or one with a notation of its own. *)
Definition fn_read (en : env) (f : fn) : Prop :=
  f = FConcatenate \/ fn_bare f = true \/ exists name, names_to_functions en name = Some f.

(** * Clauses *)
Definition opt_name (o : option string) : Prop := match o with None => True | Some s => name_text s end.
Definition window_read (w : window node) : Prop := opt_name (w_parent w) /\ all is_term (window_kids w).
Definition fopts_read (x : fopts node) : Prop :=
  all is_term (fopts_kids x) /\ opt_is is_term (fo_filter x)
  /\ match fo_window x with None => fo_ignore x = false | Some w => opt_name (w_parent w) end.
Definition opt_nonneg (o : option Z) : Prop := match o with None => True | Some z => (0 <= z)%Z end.
Definition qattrs_read (q : qattrs node) : Prop :=
  all is_named (q_with q) /\ all is_term (map o_value (q_orderby q))
  /\ opt_nonneg (q_offset q) /\ opt_nonneg (q_limit q).
Definition groupby_read (g : groupby node) : Prop := g_groups g <> [] /\ all is_term (groupby_kids g).
(** How two relations are joined; only CROSS and NATURAL joins have no criterion. *)
Definition join_read (jt : join_type) (natural : bool) (c : option (jcrit node)) : Prop :=
  match c with
  | None => is_cross jt = negb natural
  | Some (JOn x) => is_term x = true
  | Some (JUsing cols) => cols <> [] /\ Forall name_text cols
  end.

(** * Objects; [vs] are the lambda parameters in scope *)
Definition well_here {Lx : lexis} (en : env) (vs : list string) (e : node) : Prop :=
  match e with
  | NNone => True
  | NLit l t => lit_read l t
  | NField n tr t =>
      t = unknown /\ name_text n /\ tref_read tr /\ match tr with TRNone => ~ In n vs | _ => True end
  | NAliased v a => is_term v = true /\ name_text a
  | NStar tr t => t = unknown /\ tref_read tr
  | NAliasedStar v cols => is_star v = true /\ cols <> [] /\ Forall name_text cols
  | NVar n => In n vs
  | NLambda ws b => Forall name_text ws /\ is_term b = true
  | NUn _ v => is_term v = true
  | NBin _ a b | NSubscript a b => is_term a = true /\ is_term b = true
  | NBetween a b c => is_term a = true /\ is_term b = true /\ is_term c = true
  | NArray l => all is_term l
  | NInQuery v q => is_term v = true /\ is_select q = true
  | NInList v l => is_term v = true /\ l <> [] /\ all is_term l
  | NLike a b c => is_term a = true /\ is_term b = true /\ opt_is is_term c
  | NTypeCtor v n => quoted_text_in v /\ exists m, name_text m /\ n = upper m
  | NRow l => l <> [] /\ all is_term l
  | NInterval v f to =>
      (uni = false -> doubled squote v) /\ In f interval_fields
      /\ match to with None => True | Some t => In (upper t) interval_fields end
  | NCast _ v t => is_term v = true /\ wf_type t = true
  | NCase bs el v =>
      Forall (fun cv => is_term (fst cv) = true /\ is_term (snd cv) = true) bs
      /\ opt_is is_term el /\ opt_is is_term v
  | NFunc f args fo =>
      fn_read en f /\ (all is_term args \/ exists tr, args = [NStar tr unknown]) /\ fopts_read fo
      /\ (f = FFromUnixtime -> length args <> 1)
  | NDateTime f p => is_datetime f = true /\ (exists name, names_to_functions en name = Some f) /\ (0 <= p)%Z
  | NListAgg v sep ov ob =>
      is_term v = true /\ quoted_text_in sep /\ match ov with None => True | Some x => quoted_text_in (snd x) end
      /\ all is_term (map o_value ob)
  | NNormalize v form => is_term v = true /\ form = None
  | NSelect sel fr wh gb hv _ ws qa =>
      all is_selected sel /\ opt_is is_source fr /\ opt_is is_term wh
      /\ match gb with None => True | Some g => groupby_read g end
      /\ opt_is is_term hv
      /\ Forall (fun nw => name_text (fst nw) /\ window_read (snd nw)) ws /\ NoDup (map fst ws)
      /\ qattrs_read qa
  | NSetQuery _ l r _ qa => is_select l = true /\ is_select r = true /\ qattrs_read qa
  | NTableQuery t qa => is_source t = true /\ qattrs_read qa
  | NValues l qa => l <> [] /\ all is_term l /\ qattrs_read qa
  | NTable n sc ca => name_text n /\ opt_name sc /\ opt_name ca /\ (sc = None -> ca = None)
  | NAliasedRel r a cols => is_source r = true /\ name_text a /\ Forall name_text cols
  | NJoin l r jt natural c => is_source l = true /\ is_source r = true /\ join_read jt natural c
  | NUnnest l _ => l <> [] /\ all is_term l
  | NLateral q => is_select q = true
  | NSample r _ p => is_source r = true /\ is_term p = true
  end.

(** The same for all parts. *)
Inductive well {Lx : lexis} (en : env) : list string -> node -> Prop :=
| well_node vs e :
    well_here en vs e -> Forall (well en (scope vs e)) (kids e) -> well en vs e.
