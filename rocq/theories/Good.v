(** The fragment of objects for which reading the printed text back is proved
    to give the same object, as a property of each node and its direct parts.
    Every condition excludes objects for which the round trip fails or whose
    text is outside the model (DESIGN.md lists them). *)
From Coq Require Import String List ZArith NArith Bool Arith.
From Verif Require Import PyStr Types Inference Lexer TypeParser TypeRoundTrip Functions Ast Sql
  Tokens Parser ParseParts ParseExpr ParsePrim ParseForms ParseRel ParseQuery.
Import ListNotations.
Open Scope nat_scope.
Open Scope string_scope.
Open Scope list_scope.

(** * Kinds of objects *)
Definition is_expr (e : node) : bool :=
  match e with
  | NLit _ _ | NField _ _ _ | NVar _ | NLambda _ _ | NUn _ _ | NBin _ _ _ | NBetween _ _ _
  | NArray _ | NInQuery _ _ | NInList _ _ | NLike _ _ _ | NTypeCtor _ _ | NRow _ | NCast _ _ _
  | NSubscript _ _ | NCase _ _ _ | NFunc _ _ _ | NDateTime _ _ | NListAgg _ _ _ _ => true
  | _ => false
  end.
(** Selected items. *)
Definition is_item (e : node) : bool :=
  (is_expr e || match e with NAliased _ _ | NStar _ _ => true | _ => false end)%bool.
(** Queries other than set operations. *)
Definition is_q (e : node) : bool :=
  match e with NSelect _ _ _ _ _ _ _ _ | NTableQuery _ _ | NValues _ _ => true | _ => false end.
Definition is_rel (e : node) : bool :=
  (is_q e || match e with
             | NTable _ _ _ | NAliasedRel _ _ _ | NJoin _ _ _ _ _ | NUnnest _ _ | NLateral _
             | NSample _ _ _ => true
             | _ => false
             end)%bool.

(** The rule of SqlBase.g4 that an expression's text belongs to: 9
    primaryExpression, 8 the signs, 7 and 6 the arithmetic levels of
    valueExpression, 4 a predicate, 3 NOT, 2 AND, 1 OR, 0 a lambda. *)
Definition cat (e : node) : nat :=
  match e with
  | NLambda _ _ => 0
  | NBin BOr _ _ => 1
  | NBin BAnd _ _ => 2
  | NUn UNot v => if negatable v then 4 else 3
  | NUn UIsNull _ | NBetween _ _ _ | NInQuery _ _ | NInList _ _ | NLike _ _ _ => 4
  | NBin (BAdd | BMinus) _ _ => 6
  | NBin (BMul | BDiv | BMod) _ _ => 7
  | NBin _ _ _ => 4
  | NUn _ _ => 8
  | _ => 9
  end.
(** Likewise for relations: 3 relationPrimary, 2 aliasedRelation, 1
    sampledRelation, 0 relation. *)
Definition rcat (e : node) : nat :=
  match e with NJoin _ _ _ _ _ => 0 | NSample _ _ _ => 1 | NAliasedRel _ _ _ => 2 | _ => 3 end.

(** The tokens of an operand. *)
Definition ptoks (cur : option nat) (left : bool) (x : node) : list token :=
  if needs_parens cur left x then paren (toks x) else toks x.
(** An operand of an operator of precedence [cur] whose grammar rule allows
    texts of category [need] and above. *)
Definition fits (need : nat) (cur : option nat) (left : bool) (x : node) : bool :=
  (is_expr x && (needs_parens cur left x || (need <=? cat x)%nat))%bool.
(** What the grammar wants on both sides of a binary operator. *)
Definition needs (op : binop) : nat * nat :=
  match op with
  | BAdd | BMinus => (6, 7)
  | BMul | BDiv | BMod => (7, 8)
  | BAnd => (2, 3)
  | BOr => (1, 2)
  | _ => (5, 5)
  end.

(** * Leaves *)

(** The type the parser gives to a literal (that of a negative decimal comes
    from the digits without the sign). *)
Definition lit_type (l : lit) : result dtype :=
  match l with
  | LNone => Ok unknown
  | LBool _ => Ok (TSimple SBoolean)
  | LInt z => Ok (infer_integral z)
  | LDec d => infer_decimal (mkDec false (dcoef d) (dexp d))
  | LStr s => Ok (TVarchar (Some (zlen s)))
  | LFloat _ => Err NotModelled
  end.
Definition lit_good (l : lit) (t : dtype) : bool :=
  (match lit_type l with Ok t' => dtype_eqb t' t | Err _ => false end
   && match l with
      | LDec d =>
          (dec_plain d
           && (negb (dneg d)
               || (negb (N.eqb (dcoef d) 0)
                   && Nat.leb (String.length (str_of_N (dcoef d))) ctx_prec)))%bool
      | LStr s => inner squote s
      | _ => true
      end)%bool.
Definition ctor_name (n : string) : bool :=
  (String.eqb (upper n) n
   && match word_token n with
      | TId m => String.eqb m n
      | TKw k m => String.eqb m n && mem k ctor_words
      | _ => false
      end)%bool.
Definition registered (en : env) (f : fn) : bool :=
  match names_to_functions en (fn_name f) with
  | Some g => String.eqb (fn_name g) (fn_name f)
  | None => false
  end.

(** * Parts *)
Definition opt_all {A} (f : A -> bool) (x : option A) : bool :=
  match x with None => true | Some a => f a end.
Definition window_good (w : window node) : bool :=
  (opt_all plain (w_parent w) && forallb is_expr (window_kids w))%bool.
Definition fopts_good (x : fopts node) : bool :=
  (forallb is_expr (fopts_kids x) && opt_all window_good (fo_window x)
   && (negb (fo_ignore x) || match fo_window x with None => false | Some _ => true end))%bool.
Definition set_good (l : list node) : bool :=
  (forallb is_expr l && match l with [v] => no_open (toks v) | _ => true end)%bool.
Definition group_good (g : group node) : bool :=
  match g with
  | GSet l => set_good l
  | GSets ll => forallb set_good ll
  | GCube l | GRollup l => forallb is_expr l
  end.
Definition groupby_good (g : groupby node) : bool :=
  (nonempty (g_groups g) && forallb group_good (g_groups g))%bool.
Definition named_good (e : node) : bool :=
  match e with NAliasedRel q _ [] => is_q q | _ => false end.
Definition qattrs_good (q : qattrs node) : bool :=
  (forallb named_good (q_with q) && forallb (fun o => is_expr (o_value o)) (q_orderby q)
   && opt_all (fun z => (0 <? z)%Z) (q_offset q) && opt_all (fun z => (0 <? z)%Z) (q_limit q))%bool.
Definition crit_good (c : jcrit node) : bool :=
  match c with
  | JUsing cols => (nonempty cols && forallb plain cols)%bool
  | JOn x => is_expr x
  end.
Definition is_cross (j : join_type) : bool := match j with JCross => true | _ => false end.

(** * Nodes; [vs] are the lambda parameters in scope *)
Definition good_here (en : env) (vs : list string) (e : node) : bool :=
  (match check e with Ok _ => true | Err _ => false end &&
  match e with
  | NLit l t => lit_good l t
  | NField n tr t =>
      (dtype_eqb unknown t && inner dquote n
       && match tr with
          | TRNone => negb (mem n vs)
          | TRStr s => negb (String.eqb s "") && inner dquote s
          | TRVal _ => false
          end)%bool
  | NVar n => (mem n vs && plain n)%bool
  | NLambda ws b => (nonempty ws && forallb plain ws && is_expr b)%bool
  | NUn UNeg v => (fits 8 (Some 8) true v && not_number (ptoks (Some 8) true v))%bool
  | NUn UPos v => fits 8 (Some 8) true v
  | NUn UNot v =>
      if negatable v
      then match v with NBin (BEq | BNe) _ _ => false | _ => true end
      else fits 3 (Some 2) true v
  | NUn UIsNull v => fits 5 (Some 3) true v
  | NBin op l r =>
      (fits (fst (needs op)) (binop_prec op) true l && fits (snd (needs op)) (binop_prec op) false r)%bool
  | NBetween a b c =>
      (fits 5 (Some 3) true a && fits 5 (Some 3) true b && fits 5 (Some 3) true c)%bool
  | NInQuery v q => (negb (nonempty vs) && fits 5 (Some 3) true v && is_q q)%bool
  | NInList v l => (fits 5 (Some 3) true v && nonempty l && forallb is_expr l)%bool
  | NLike a b c =>
      (fits 5 (Some 3) true a && fits 5 (Some 3) true b
       && opt_all (fun x => is_expr x && (5 <=? cat x)%nat) c)%bool
  | NArray l => (nonempty l && forallb is_expr l)%bool
  | NRow l => ((2 <=? length l)%nat && forallb is_expr l)%bool
  | NTypeCtor v n => (inner squote v && ctor_name n)%bool
  | NCast _ v t => (is_expr v && wf_type t)%bool
  | NSubscript v i => (is_expr v && (cat v =? 9)%nat && is_expr i && (5 <=? cat i)%nat)%bool
  | NCase bs el v =>
      (nonempty bs && forallb (fun cv => is_expr (fst cv) && is_expr (snd cv)) bs
       && opt_all is_expr el && opt_all is_expr v)%bool
  | NFunc f args fo =>
      match f, args with
      | FCount, [NStar TRNone t] => (dtype_eqb unknown t && fopts_good fo)%bool
      | _, _ =>
          (registered en f
           && (if fn_bare f then negb (nonempty args) && fopts_empty fo
               else negb (fn_special f) && forallb is_expr args && fopts_good fo
                    && match f with
                       | FFromUnixtime => negb (length args =? 1)%nat
                       | FApproxPercentile => negb (length args =? 3)%nat
                       | _ => true
                       end))%bool
      end
  | NDateTime f p => (is_datetime f && registered en f && (0 <=? p)%Z)%bool
  | NListAgg v sep ov ob =>
      (is_expr v && forallb (fun o => is_expr (o_value o)) ob
       && (String.eqb sep " " || inner squote sep)
       && opt_all (fun x => inner squote (snd x)) ov)%bool
  | NAliased v a => (negb (nonempty vs) && is_expr v && inner dquote a)%bool
  | NStar tr t =>
      (dtype_eqb unknown t && match tr with TRNone => true | TRStr s => plain s | TRVal _ => false end)%bool
  | NSelect sel fr wh gb hv _ ws qa =>
      (negb (nonempty vs) && forallb is_item sel && opt_all is_rel fr && opt_all is_expr wh
       && opt_all groupby_good gb && opt_all is_expr hv
       && forallb (fun nw => plain (fst nw) && window_good (snd nw)) ws
       && distinct_names (map fst ws) && qattrs_good qa)%bool
  | NTableQuery t qa =>
      (negb (nonempty vs) && match t with NTable _ _ _ => true | _ => false end && qattrs_good qa)%bool
  | NValues l qa =>
      (negb (nonempty vs) && nonempty l && forallb is_expr l && qattrs_good qa)%bool
  | NTable n sc ca =>
      (negb (nonempty vs) && match ca, sc with Some _, None => false | _, _ => true end
       && forallb (inner dquote) (drop_none [ca; sc; Some n]))%bool
  | NAliasedRel r a cols =>
      (negb (nonempty vs) && is_rel r && (rcat r =? 3)%nat && inner dquote a && forallb plain cols)%bool
  | NJoin l r jt nat c =>
      (negb (nonempty vs) && is_rel l && is_rel r
       && match c with
          | Some x => negb (is_cross jt) && negb nat && crit_good x
          | None => xorb (is_cross jt) nat && (1 <=? rcat r)%nat
          end)%bool
  | NUnnest l od => (negb (nonempty vs) && nonempty l && forallb is_expr l && negb od)%bool
  | NLateral q => (negb (nonempty vs) && is_q q)%bool
  | NSample r _ p =>
      (negb (nonempty vs) && is_rel r && is_expr p
       && ((2 <=? rcat r)%nat || (is_join r && no_paren (toks r))))%bool
  | _ => false
  end)%bool.

(** The parameters in scope in the direct parts. *)
Definition scope (vs : list string) (e : node) : list string :=
  match e with NLambda ws _ => ws ++ vs | _ => vs end.

Inductive good (en : env) : list string -> node -> Prop :=
| good_node vs e :
    good_here en vs e = true -> (forall x, In x (kids e) -> good en (scope vs e) x) -> good en vs e.

(** Deciding it on an object of known depth. *)
Fixpoint good_n (en : env) (n : nat) (vs : list string) (e : node) : bool :=
  match n with
  | O => false
  | S n => (good_here en vs e && forallb (good_n en n (scope vs e)) (kids e))%bool
  end.
Lemma good_dec en n vs e : good_n en n vs e = true -> good en vs e.
Proof.
  revert vs e; induction n as [|n IH]; intros vs e H; [discriminate|]. cbn [good_n] in H.
  apply andb_true_iff in H as [H1 H2]. constructor; [exact H1|].
  rewrite forallb_forall in H2. intros x Hx. now apply IH, H2.
Qed.
