(** Printing and parsing of data types (C02, C03, C04). *)
From Coq Require Import String Ascii List ZArith NArith Bool Lia Arith.
From Verif Require Import PyStr StrFacts Types TypeFacts Lexer LexFacts TypeParser.
Import ListNotations.
Open Scope string_scope.

(** * Printable types *)

(** Integer parameters are non-negative and in the constructor's range, and
    a ROW has at least one field. *)
Definition opt_nonneg (o : option Z) : bool :=
  match o with None => true | Some z => (0 <=? z)%Z end.
Fixpoint wf_type (t : dtype) : bool :=
  match t with
  | TDecimal p s => (0 <=? p)%Z && (p <=? 38)%Z && (0 <=? s)%Z
  | TVarchar m => opt_nonneg m
  | TChar m => (0 <=? m)%Z
  | TTime p _ | TTimestamp p _ => opt_prec_ok p
  | TArray t | TQdigest t => wf_type t
  | TMap k v => wf_type k && wf_type v
  | TRow l => negb (match l with [] => true | _ => false end) && forallb wf_type l
  | TSimple _ | TInterval _ => true
  end%bool.
Fixpoint interval_free (t : dtype) : bool :=
  match t with
  | TInterval _ => false
  | TArray t | TQdigest t => interval_free t
  | TMap k v => interval_free k && interval_free v
  | TRow l => forallb interval_free l
  | _ => true
  end%bool.

(** * Text with keywords in upper ([low = false]) or lower case *)
Definition w (low : bool) (s : string) : string := if low then lower s else s.

Definition timelike_sql_c low (name : string) (p : option Z) (z : bool) : string :=
  w low name ++ match p with None => "" | Some n => "(" ++ str_of_Z n ++ ")" end
       ++ (if z then w low " WITH TIME ZONE" else "").
Fixpoint type_sql_c (low : bool) (t : dtype) : string :=
  match t with
  | TSimple s => w low (simple_name s)
  | TDecimal p s => w low "DECIMAL(" ++ str_of_Z p ++ "," ++ str_of_Z s ++ ")"
  | TVarchar None => w low "VARCHAR"
  | TVarchar (Some n) => w low "VARCHAR(" ++ str_of_Z n ++ ")"
  | TChar n => w low "CHAR(" ++ str_of_Z n ++ ")"
  | TTime p z => timelike_sql_c low "TIME" p z
  | TTimestamp p z => timelike_sql_c low "TIMESTAMP" p z
  | TInterval k => w low "INTERVAL " ++ w low (iv_from k) ++ w low " TO " ++ w low (iv_to k)
  | TArray t => w low "ARRAY(" ++ type_sql_c low t ++ ")"
  | TMap k v => w low "MAP(" ++ type_sql_c low k ++ "," ++ type_sql_c low v ++ ")"
  | TRow l => w low "ROW(" ++ join "," (map (type_sql_c low) l) ++ ")"
  | TQdigest t => w low "QDIGEST(" ++ type_sql_c low t ++ ")"
  end.

Lemma type_sql_c_false t : type_sql_c false t = type_sql t.
Proof.
  induction t as [s|p s|m|m|p z|p z|k|t IH|k v IHk IHv|l IH|t IH] using dtype_ind';
    cbn [type_sql_c type_sql w]; try reflexivity; try (now rewrite IH).
  - now rewrite IHk, IHv.
  - do 2 f_equal. f_equal. apply map_ext_Forall. exact IH.
Qed.

Lemma lower_app a b : lower (a ++ b) = lower a ++ lower b.
Proof. induction a as [|c a IH]; cbn; [reflexivity | now f_equal]. Qed.
Lemma lower_digits s : str_forall is_digit s = true -> lower s = s.
Proof.
  assert (H : forall c, implb (is_digit c) (Ascii.eqb (lower_char c) c) = true) by by_all_ascii.
  induction s as [|c s IH]; cbn; [reflexivity|].
  rewrite andb_true_iff; intros [Hc Hs]. specialize (H c); rewrite Hc in H; cbn in H.
  apply Ascii.eqb_eq in H. f_equal; auto.
Qed.
Lemma lower_Z z : lower (str_of_Z z) = str_of_Z z.
Proof.
  destruct z as [|p|p]; cbn [str_of_Z].
  - reflexivity.
  - apply lower_digits, str_of_N_digits.
  - change (lower (String "-" (str_of_N (N.pos p)))) with (String (lower_char "-") (lower (str_of_N (N.pos p)))).
    rewrite lower_digits by apply str_of_N_digits. reflexivity.
Qed.
Lemma lower_join d l : lower (join d l) = join (lower d) (map lower l).
Proof.
  unfold join. induction l as [|x l IH]; [reflexivity|].
  destruct l as [|y l]; [reflexivity|].
  change (String.concat d (x :: y :: l)) with (x ++ d ++ String.concat d (y :: l)).
  rewrite !lower_app, IH. reflexivity.
Qed.

Lemma type_sql_c_true t : type_sql_c true t = lower (type_sql t).
Proof.
  induction t as [s|p s|m|m|p z|p z|k|t IH|k v IHk IHv|l IH|t IH] using dtype_ind';
    cbn [type_sql_c type_sql w]; rewrite ?lower_app, ?lower_Z; try reflexivity.
  - destruct m; rewrite ?lower_app, ?lower_Z; reflexivity.
  - unfold timelike_sql_c, timelike_sql. rewrite !lower_app. f_equal.
    destruct p as [n|], z; rewrite ?lower_app, ?lower_Z; reflexivity.
  - unfold timelike_sql_c, timelike_sql. rewrite !lower_app. f_equal.
    destruct p as [n|], z; rewrite ?lower_app, ?lower_Z; reflexivity.
  - rewrite IH; reflexivity.
  - rewrite IHk, IHv; reflexivity.
  - rewrite lower_join. change (lower ",") with ",". rewrite map_map.
    do 2 f_equal. f_equal. apply map_ext_Forall. exact IH.
  - rewrite IH; reflexivity.
Qed.

(** * Tokens *)
Definition wt (low : bool) (s : string) : token := word_token (w low s).
Definition Ztok (z : Z) : token := TInt (str_of_Z z).
Definition timelike_toks low (name : string) (p : option Z) (z : bool) : list token :=
  wt low name :: match p with None => [] | Some n => [TSym "("; Ztok n; TSym ")"] end
       ++ (if z then [wt low "WITH"; wt low "TIME"; wt low "ZONE"] else []).
Fixpoint type_toks (low : bool) (t : dtype) : list token :=
  match t with
  | TSimple s => [wt low (simple_name s)]
  | TDecimal p s => [wt low "DECIMAL"; TSym "("; Ztok p; TSym ","; Ztok s; TSym ")"]
  | TVarchar None => [wt low "VARCHAR"]
  | TVarchar (Some n) => [wt low "VARCHAR"; TSym "("; Ztok n; TSym ")"]
  | TChar n => [wt low "CHAR"; TSym "("; Ztok n; TSym ")"]
  | TTime p z => timelike_toks low "TIME" p z
  | TTimestamp p z => timelike_toks low "TIMESTAMP" p z
  | TInterval k => [wt low "INTERVAL"; wt low (iv_from k); wt low "TO"; wt low (iv_to k)]
  | TArray t => wt low "ARRAY" :: TSym "(" :: type_toks low t ++ [TSym ")"]
  | TMap k v => wt low "MAP" :: TSym "(" :: type_toks low k ++ TSym "," :: type_toks low v ++ [TSym ")"]
  | TRow l => wt low "ROW" :: TSym "(" :: tjoin [TSym ","] (map (type_toks low) l) ++ [TSym ")"]
  | TQdigest t => wt low "QDIGEST" :: TSym "(" :: type_toks low t ++ [TSym ")"]
  end%list.

Lemma lexes_Z z : (0 <= z)%Z -> lexes (str_of_Z z) [Ztok z].
Proof. intro H; unfold Ztok; rewrite (str_of_Z_nonneg z H); apply lexes_N. Qed.
Lemma lex_Z z k : (0 <= z)%Z -> stop k = true -> lex (str_of_Z z ++ k) = Ztok z :: lex k.
Proof. intros H Hk; now rewrite (lexes_Z z H k Hk). Qed.

Ltac norm_lower :=
  repeat match goal with
  | |- context [lower ?s] =>
      let v := eval vm_compute in (lower s) in change (lower s) with v
  end.
Ltac lexstep :=
  first [ rewrite lex_Z by (assumption || reflexivity) | lex_lit
        | match goal with IH : lexes _ _ |- _ => rewrite IH by (assumption || reflexivity) end ].
Ltac lexgo := intros k0 Hk0; rewrite ?sapp_assoc;
              repeat match goal with |- context ["" ++ ?k] => change ("" ++ k) with k end;
              repeat lexstep;
              cbn [app]; rewrite <- ?app_assoc; cbn [app]; rewrite <- ?app_assoc; reflexivity.

Lemma lexes_timelike low n p z :
  n = "TIME" \/ n = "TIMESTAMP" -> opt_prec_ok p = true ->
  lexes (timelike_sql_c low n p z) (timelike_toks low n p z).
Proof.
  intros Hn Hp. unfold timelike_sql_c, timelike_toks.
  destruct p as [m|].
  - cbn in Hp; rewrite andb_true_iff, !Z.leb_le in Hp. destruct Hp as [Hp _].
    destruct Hn as [-> | ->], low, z; cbn [w]; norm_lower; lexgo.
  - destruct Hn as [-> | ->], low, z; cbn [w]; norm_lower; lexgo.
Qed.

Lemma lexes_type low t : wf_type t = true -> lexes (type_sql_c low t) (type_toks low t).
Proof.
  induction t as [s|p s|m|m|p z|p z|k|t IH|k v IHk IHv|l IH|t IH] using dtype_ind';
    cbn [type_sql_c type_toks wf_type]; intro Hwf.
  - destruct s, low; cbn [w simple_name]; norm_lower; lexgo.
  - rewrite !andb_true_iff, !Z.leb_le in Hwf. destruct Hwf as [[Hp _] Hs].
    destruct low; cbn [w]; norm_lower; lexgo.
  - destruct m as [n|]; cbn in Hwf; try rewrite Z.leb_le in Hwf;
      destruct low; cbn [w]; norm_lower; lexgo.
  - rewrite Z.leb_le in Hwf. destruct low; cbn [w]; norm_lower; lexgo.
  - apply lexes_timelike; auto.
  - apply lexes_timelike; auto.
  - destruct k, low; cbn [w iv_from iv_to]; norm_lower; lexgo.
  - specialize (IH Hwf). destruct low; cbn [w]; norm_lower; lexgo.
  - apply andb_true_iff in Hwf; destruct Hwf as [Hk Hv].
    specialize (IHk Hk); specialize (IHv Hv).
    destruct low; cbn [w]; norm_lower; lexgo.
  - apply andb_true_iff in Hwf; destruct Hwf as [_ Hl].
    assert (Hj : lexes (join "," (map (type_sql_c low) l)) (tjoin [TSym ","] (map (type_toks low) l))).
    { apply (lexes_join ","); [reflexivity | reflexivity |].
      clear - IH Hl. induction IH as [|x r Hx Hr IHr]; cbn; [constructor|].
      cbn in Hl; apply andb_true_iff in Hl; destruct Hl; constructor; auto. }
    destruct low; cbn [w]; norm_lower; lexgo.
  - specialize (IH Hwf). destruct low; cbn [w]; norm_lower; lexgo.
Qed.

(** * Parse trees *)

(** The identifier token as read. *)
Fixpoint type_ptree (low : bool) (t : dtype) : ptype :=
  match t with
  | TSimple s => PTGeneric (IdUnquoted (w low (simple_name s))) []
  | TDecimal p s => PTGeneric (IdUnquoted (w low "DECIMAL")) [PPInt (str_of_Z p); PPInt (str_of_Z s)]
  | TVarchar None => PTGeneric (IdUnquoted (w low "VARCHAR")) []
  | TVarchar (Some n) => PTGeneric (IdUnquoted (w low "VARCHAR")) [PPInt (str_of_Z n)]
  | TChar n => PTGeneric (IdUnquoted (w low "CHAR")) [PPInt (str_of_Z n)]
  | TTime p z => PTDateTime false (option_map (fun n => PPInt (str_of_Z n)) p) z
  | TTimestamp p z => PTDateTime true (option_map (fun n => PPInt (str_of_Z n)) p) z
  | TInterval k => PTInterval (w low (iv_from k)) (Some (w low (iv_to k)))
  | TArray t => PTGeneric (IdUnquoted (w low "ARRAY")) [PPType (type_ptree low t)]
  | TMap k v => PTGeneric (IdUnquoted (w low "MAP")) [PPType (type_ptree low k); PPType (type_ptree low v)]
  | TRow l => PTRow (map (fun t => PRowField None (type_ptree low t)) l)
  | TQdigest t => PTGeneric (IdUnquoted (w low "QDIGEST")) [PPType (type_ptree low t)]
  end.

(** Tokens that cannot continue a type. *)
Definition tfollow (rest : list token) : bool :=
  match rest with
  | TSym s :: _ => negb (String.eqb s "(" || String.eqb s "<")
  | TKw k _ :: _ => negb (mem k ["ARRAY"; "WITH"; "WITHOUT"; "PRECISION"])
  | _ => true
  end%bool.

Lemma tfollow_kw rest k : tfollow rest = true -> mem k ["ARRAY"; "WITH"; "WITHOUT"; "PRECISION"] = true ->
  eat_kw k rest = None.
Proof.
  intros H Hk. destruct rest as [|t r]; [reflexivity|]. destruct t; try reflexivity.
  cbn [eat_kw]. cbn [tfollow] in H. apply negb_true_iff in H.
  match goal with |- context [String.eqb ?a ?b] => destruct (String.eqb_spec a b) as [->|] end;
    [congruence | reflexivity].
Qed.
Lemma tfollow_sym rest : tfollow rest = true -> eat_sym "(" rest = None /\ eat_sym "<" rest = None.
Proof.
  intros H. destruct rest as [|t r]; [auto|]. destruct t; auto.
  cbn [eat_sym]. cbn [tfollow] in H. apply negb_true_iff, orb_false_iff in H.
  destruct H as [-> ->]; auto.
Qed.

Lemma p_type_suffix_end n t rest :
  n <> 0 -> tfollow rest = true -> p_type_suffix n t rest = Ok (t, rest).
Proof.
  intros Hn H. destruct n; [congruence|]. cbn [p_type_suffix].
  now rewrite (tfollow_kw rest "ARRAY" H eq_refl).
Qed.

(** Keyword tokens in both spellings. *)
Definition is_kw_tok (low : bool) (s : string) : bool :=
  match wt low s with
  | TKw k t => (String.eqb k s && String.eqb t (w low s))%bool
  | _ => false
  end.
Lemma wt_kw low s :
  (is_kw_tok true s && is_kw_tok false s)%bool = true -> wt low s = TKw s (w low s).
Proof.
  rewrite andb_true_iff; intros [H1 H2].
  assert (H : is_kw_tok low s = true) by (destruct low; assumption).
  unfold is_kw_tok in H. destruct (wt low s); try discriminate.
  apply andb_true_iff in H; destruct H as [Ha Hb].
  apply String.eqb_eq in Ha; apply String.eqb_eq in Hb; now subst.
Qed.

(** Identifier tokens of type names: read as an identifier. *)
Lemma p_ident_wt low s rest :
  match wt low s with TId t => t = w low s | TKw k t => mem k non_reserved = true /\ t = w low s | _ => False end ->
  p_ident (wt low s :: rest) = Ok (IdUnquoted (w low s), rest).
Proof.
  destruct (wt low s); intro H; try destruct H; subst; cbn [p_ident]; try tauto.
  rewrite H; reflexivity.
Qed.

(** The generic alternative is taken for these names. *)
Definition generic_name (low : bool) (s : string) : bool :=
  match wt low s with
  | TId t => String.eqb t (w low s)
  | TKw k t => (mem k non_reserved && String.eqb t (w low s)
                && negb (mem k ["ROW"; "INTERVAL"; "TIMESTAMP"; "TIME"]))%bool
  | _ => false
  end.

Lemma p_prim_generic low s rest n :
  generic_name low s = true ->
  eat_sym "<" rest = None -> eat_kw "PRECISION" rest = None ->
  p_type_prim (S n) (wt low s :: rest) = p_generic n (wt low s :: rest).
Proof.
  unfold generic_name. intros Hg H1 H2. cbn [p_type_prim].
  destruct (wt low s) as [k t| | | | | | | | | | | |]; try discriminate; try reflexivity.
  rewrite !andb_true_iff, negb_true_iff in Hg. destruct Hg as [_ Hm].
  unfold mem in Hm; cbn [existsb] in Hm. rewrite !orb_false_iff in Hm.
  destruct Hm as (E1 & E2 & E3 & E4 & _). rewrite E1, E2, E3, E4. cbn [orb].
  rewrite H1, H2.
  destruct (String.eqb k "DOUBLE"), (String.eqb k "ARRAY"), (String.eqb k "MAP"); reflexivity.
Qed.
Lemma p_ident_generic low s rest :
  generic_name low s = true -> p_ident (wt low s :: rest) = Ok (IdUnquoted (w low s), rest).
Proof.
  unfold generic_name. destruct (wt low s); try discriminate; cbn [p_ident]; intro H.
  - rewrite !andb_true_iff in H. destruct H as [[H1 H2] _]. apply String.eqb_eq in H2.
    rewrite H1; now subst.
  - apply String.eqb_eq in H; now subst.
Qed.
Lemma type_name_generic low t :
  match t with TTime _ _ | TTimestamp _ _ | TInterval _ | TRow _ => True
  | _ => generic_name low (type_name t) = true end.
Proof.
  destruct t as [s| | | | | | | | | |]; try exact I; [destruct s|..];
    destruct low; vm_compute; reflexivity.
Qed.

Lemma p_generic_noparams low s rest n :
  generic_name low s = true -> tfollow rest = true ->
  p_type (S (S (S n))) (wt low s :: rest) = Ok (PTGeneric (IdUnquoted (w low s)) [], rest).
Proof.
  intros Hg Hf. cbn [p_type].
  rewrite p_prim_generic; [|exact Hg | now apply tfollow_sym | now apply tfollow_kw].
  cbn [p_generic]. rewrite (p_ident_generic low s rest Hg). cbn [bind].
  rewrite (proj1 (tfollow_sym rest Hf)). cbn [bind].
  now rewrite p_type_suffix_end.
Qed.
Lemma p_generic_params low s n ps body rest :
  generic_name low s = true -> tfollow rest = true ->
  p_typeparams n (body ++ TSym ")" :: rest)%list = Ok (ps, (TSym ")" :: rest)%list) ->
  p_type (S (S (S n))) (wt low s :: TSym "(" :: body ++ TSym ")" :: rest)%list
  = Ok (PTGeneric (IdUnquoted (w low s)) ps, rest).
Proof.
  intros Hg Hf Hp. cbn [p_type].
  rewrite p_prim_generic; [|exact Hg | reflexivity | reflexivity].
  cbn [p_generic]. rewrite (p_ident_generic low s _ Hg). cbn [bind].
  change (eat_sym "(" (TSym "(" :: body ++ TSym ")" :: rest)%list)
    with (Some (body ++ TSym ")" :: rest)%list).
  cbv iota. rewrite Hp. cbn [bind need eat_sym String.eqb Ascii.eqb Bool.eqb].
  now rewrite p_type_suffix_end.
Qed.

Lemma tlen_pos low t : 1 <= length (type_toks low t).
Proof.
  destruct t as [s| |m| |p z|p z| | | | |]; cbn; try lia.
  destruct m; cbn; lia.
Qed.

Ltac nz := lia.

Lemma not_int_head low t rest : exists tk r,
  (type_toks low t ++ rest)%list = tk :: r /\ match tk with TInt _ => False | _ => True end.
Proof.
  assert (H : forall s, match wt low s with TInt _ => False | _ => True end).
  { intro s. unfold wt, word_token.
    destruct (mem (w low s) keywords); [exact I|].
    destruct (mem (w low s) upper_keywords); [exact I|].
    match goal with |- context [if ?b then _ else _] => destruct b end; exact I. }
  destruct t as [s|? ?|[|]|?|p z|p z|k|t|k v|l|t]; cbn [type_toks timelike_toks app];
    eexists; eexists; (split; [reflexivity | apply H]).
Qed.

Lemma p_typeparam_type low t n rest r' tree :
  p_type n (type_toks low t ++ rest)%list = Ok (tree, r') ->
  p_typeparam (S n) (type_toks low t ++ rest)%list = Ok (PPType tree, r').
Proof.
  intro H. destruct (not_int_head low t rest) as (tk & r & E & Hni).
  cbn [p_typeparam]. rewrite E in *. destruct tk; try contradiction; rewrite H; reflexivity.
Qed.

Lemma p_type_ok low t : wf_type t = true -> forall n rest,
  8 * length (type_toks low t) <= n -> tfollow rest = true ->
  p_type n (type_toks low t ++ rest)%list = Ok (type_ptree low t, rest).
Proof.
  induction t as [s|p s|m|m|p z|p z|k|t IH|k v IHk IHv|l IH|t IH] using dtype_ind';
    intros Hwf n rest Hn Hf; cbn [wf_type] in Hwf.
  - cbn [type_toks app type_ptree]. cbn in Hn.
    destruct n as [|[|[|n]]]; try lia.
    apply p_generic_noparams; [apply (type_name_generic low (TSimple s)) | exact Hf].
  - cbn in Hn. destruct n as [|[|[|[|[|[|n]]]]]]; try lia.
    apply (p_generic_params low "DECIMAL" _ _ [Ztok p; TSym ","; Ztok s]);
      [apply (type_name_generic low (TDecimal p s)) | exact Hf | reflexivity].
  - destruct m as [m|]; cbn in Hn; destruct n as [|[|[|[|[|[|n]]]]]]; try lia.
    + apply (p_generic_params low "VARCHAR" _ _ [Ztok m]);
        [apply (type_name_generic low (TVarchar None)) | exact Hf | reflexivity].
    + apply p_generic_noparams; [apply (type_name_generic low (TVarchar None)) | exact Hf].
  - cbn in Hn; destruct n as [|[|[|[|[|[|n]]]]]]; try lia.
    apply (p_generic_params low "CHAR" _ _ [Ztok m]);
        [apply (type_name_generic low (TChar m)) | exact Hf | reflexivity].
  - (* TIME *)
    cbn in Hn. destruct n as [|[|[|[|[|[|n]]]]]]; try lia.
    cbn [p_type].
    assert (E : p_type_prim (S (S (S (S (S n))))) (type_toks low (TTime p z) ++ rest)%list
                = Ok (type_ptree low (TTime p z), rest)).
    { cbn [type_toks type_ptree]. unfold timelike_toks.
      rewrite (wt_kw low "TIME"), (wt_kw low "WITH"), ?(wt_kw low "TIME"), (wt_kw low "ZONE")
        by (vm_compute; reflexivity).
      pose proof (tfollow_kw rest "WITH" Hf eq_refl) as F1.
      pose proof (tfollow_kw rest "WITHOUT" Hf eq_refl) as F2.
      destruct (tfollow_sym rest Hf) as [F3 _].
      assert (Hz : p_zone ((if z then [TKw "WITH" (w low "WITH"); TKw "TIME" (w low "TIME");
                        TKw "ZONE" (w low "ZONE")] else []) ++ rest)%list = Ok (z, rest)).
      { destruct z; [reflexivity|]. cbn [app]. unfold p_zone. now rewrite F1, F2. }
      destruct p as [p|].
      - cbn [app]. cbn [p_type_prim String.eqb Ascii.eqb Bool.eqb orb eat_sym].
        unfold Ztok. cbn [p_typeparam bind eat_sym String.eqb Ascii.eqb Bool.eqb need].
        rewrite Hz. reflexivity.
      - cbn [app]. cbn [p_type_prim String.eqb Ascii.eqb Bool.eqb orb].
        assert (Hs : eat_sym "(" ((if z then [TKw "WITH" (w low "WITH"); TKw "TIME" (w low "TIME");
                        TKw "ZONE" (w low "ZONE")] else []) ++ rest)%list = None)
          by (destruct z; [reflexivity | exact F3]).
        rewrite Hs. cbn [bind]. rewrite Hz. reflexivity. }
    rewrite E. cbn [bind]. apply p_type_suffix_end; [nz | exact Hf].
  - (* TIMESTAMP *)
    cbn in Hn. destruct n as [|[|[|[|[|[|n]]]]]]; try lia.
    cbn [p_type].
    assert (E : p_type_prim (S (S (S (S (S n))))) (type_toks low (TTimestamp p z) ++ rest)%list
                = Ok (type_ptree low (TTimestamp p z), rest)).
    { cbn [type_toks type_ptree]. unfold timelike_toks.
      rewrite (wt_kw low "TIMESTAMP"), (wt_kw low "WITH"), ?(wt_kw low "TIME"), (wt_kw low "ZONE")
        by (vm_compute; reflexivity).
      pose proof (tfollow_kw rest "WITH" Hf eq_refl) as F1.
      pose proof (tfollow_kw rest "WITHOUT" Hf eq_refl) as F2.
      destruct (tfollow_sym rest Hf) as [F3 _].
      assert (Hz : p_zone ((if z then [TKw "WITH" (w low "WITH"); TKw "TIME" (w low "TIME");
                        TKw "ZONE" (w low "ZONE")] else []) ++ rest)%list = Ok (z, rest)).
      { destruct z; [reflexivity|]. cbn [app]. unfold p_zone. now rewrite F1, F2. }
      destruct p as [p|].
      - cbn [app]. cbn [p_type_prim String.eqb Ascii.eqb Bool.eqb orb eat_sym].
        unfold Ztok. cbn [p_typeparam bind eat_sym String.eqb Ascii.eqb Bool.eqb need].
        rewrite Hz. reflexivity.
      - cbn [app]. cbn [p_type_prim String.eqb Ascii.eqb Bool.eqb orb].
        assert (Hs : eat_sym "(" ((if z then [TKw "WITH" (w low "WITH"); TKw "TIME" (w low "TIME");
                        TKw "ZONE" (w low "ZONE")] else []) ++ rest)%list = None)
          by (destruct z; [reflexivity | exact F3]).
        rewrite Hs. cbn [bind]. rewrite Hz. reflexivity. }
    rewrite E. cbn [bind]. apply p_type_suffix_end; [nz | exact Hf].
  - (* INTERVAL *)
    cbn in Hn. destruct n as [|[|n]]; try lia.
    cbn [p_type].
    assert (E : p_type_prim (S n) (type_toks low (TInterval k) ++ rest)%list
                = Ok (type_ptree low (TInterval k), rest)).
    { cbn [type_toks type_ptree].
      rewrite (wt_kw low "INTERVAL"), (wt_kw low "TO") by (vm_compute; reflexivity).
      destruct k; cbn [iv_from iv_to].
      - rewrite (wt_kw low "YEAR"), (wt_kw low "MONTH") by (vm_compute; reflexivity). reflexivity.
      - rewrite (wt_kw low "DAY"), (wt_kw low "SECOND") by (vm_compute; reflexivity). reflexivity. }
    rewrite E. cbn [bind]. apply p_type_suffix_end; [nz | exact Hf].
  - (* ARRAY *)
    cbn [type_toks length] in Hn; rewrite app_length in Hn; cbn [length] in Hn.
    destruct n as [|[|[|[|[|n]]]]]; try lia.
    cbn [type_toks app]. rewrite <- app_assoc. cbn [app].
    apply (p_generic_params low "ARRAY"); [apply (type_name_generic low (TArray t)) | exact Hf |].
    cbn [p_typeparams].
    rewrite (p_typeparam_type low t n _ (TSym ")" :: rest) (type_ptree low t)).
    + reflexivity.
    + apply IH; [exact Hwf | lia | reflexivity].
  - (* MAP *)
    apply andb_true_iff in Hwf; destruct Hwf as [Hk Hv].
    cbn [type_toks length] in Hn; rewrite app_length in Hn; cbn [length] in Hn.
    rewrite app_length in Hn; cbn [length] in Hn.
    destruct n as [|[|[|[|[|[|n]]]]]]; try lia.
    cbn [type_toks app].
    replace ((type_toks low k ++ TSym "," :: type_toks low v ++ [TSym ")"]) ++ rest)%list
      with ((type_toks low k ++ TSym "," :: type_toks low v) ++ TSym ")" :: rest)%list
      by (cbn [app]; rewrite <- !app_assoc; cbn [app]; rewrite <- !app_assoc; reflexivity).
    apply (p_generic_params low "MAP"); [apply (type_name_generic low (TMap k v)) | exact Hf |].
    rewrite <- app_assoc. cbn [app].
    change (p_typeparams (S (S (S n)))
              (type_toks low k ++ TSym "," :: type_toks low v ++ TSym ")" :: rest)%list)
      with (let* (p, r) := p_typeparam (S (S n)) (type_toks low k ++ TSym "," :: type_toks low v ++ TSym ")" :: rest)%list in
            match eat_sym "," r with
            | Some r1 => let* (ps, r2) := p_typeparams (S (S n)) r1 in Ok (p :: ps, r2)
            | None => Ok ([p], r)
            end).
    rewrite (p_typeparam_type low k (S n) _ (TSym "," :: type_toks low v ++ TSym ")" :: rest)%list
               (type_ptree low k)) by (apply IHk; [exact Hk | lia | reflexivity]).
    cbn [bind]. cbn [eat_sym String.eqb Ascii.eqb Bool.eqb].
    change (p_typeparams (S (S n)) (type_toks low v ++ TSym ")" :: rest)%list)
      with (let* (p, r) := p_typeparam (S n) (type_toks low v ++ TSym ")" :: rest)%list in
            match eat_sym "," r with
            | Some r1 => let* (ps, r2) := p_typeparams (S n) r1 in Ok (p :: ps, r2)
            | None => Ok ([p], r)
            end).
    rewrite (p_typeparam_type low v n _ (TSym ")" :: rest)%list
               (type_ptree low v)) by (apply IHv; [exact Hv | lia | reflexivity]).
    reflexivity.
  - (* ROW *)
    apply andb_true_iff in Hwf; destruct Hwf as [Hne Hl].
    cbn [type_toks length] in Hn; rewrite app_length in Hn; cbn [length] in Hn.
    destruct n as [|[|n]]; try lia.
    assert (Hfs : forall m, length l <> 0 ->
       8 * length (tjoin [TSym ","] (map (type_toks low) l)) + 2 <= m ->
       p_rowfields m (tjoin [TSym ","] (map (type_toks low) l) ++ TSym ")" :: rest)%list
       = Ok (map (fun t => PRowField None (type_ptree low t)) l, (TSym ")" :: rest)%list)).
    { clear Hn Hne Hf. induction IH as [|x r Hx Hr IHr]; intros m Hne Hm; [cbn in Hne; lia|].
      cbn [forallb] in Hl; apply andb_true_iff in Hl; destruct Hl as [Hwx Hwr].
      assert (Hrf : forall m' tl, 8 * length (type_toks low x) <= m' ->
                (exists tl', tl = TSym "," :: tl' \/ tl = TSym ")" :: tl') ->
                p_rowfield (S m') (type_toks low x ++ tl)%list
                = Ok (PRowField None (type_ptree low x), tl)).
      { intros m' tl Hm' (tl' & Htl). cbn [p_rowfield].
        rewrite (Hx Hwx) by (try exact Hm'; destruct Htl as [-> | ->]; reflexivity).
        destruct Htl as [-> | ->]; reflexivity. }
      destruct r as [|y r].
      - cbn [map tjoin] in *. cbn [length] in Hm.
        destruct m as [|[|m]]; try lia.
        change (p_rowfields (S (S m)) (type_toks low x ++ TSym ")" :: rest)%list)
          with (let* (f, r) := p_rowfield (S m) (type_toks low x ++ TSym ")" :: rest)%list in
                match eat_sym "," r with
                | Some r1 => let* (fs, r2) := p_rowfields (S m) r1 in Ok (f :: fs, r2)
                | None => Ok ([f], r)
                end).
        rewrite Hrf; [reflexivity | lia | eexists; right; reflexivity].
      - assert (Et : tjoin [TSym ","] (map (type_toks low) (x :: y :: r))
                     = (type_toks low x ++ TSym "," :: tjoin [TSym ","] (map (type_toks low) (y :: r)))%list)
          by reflexivity.
        rewrite Et in *. rewrite app_length in Hm. cbn [length] in Hm.
        destruct m as [|[|m]]; try lia.
        rewrite <- app_assoc. cbn [app].
        change (p_rowfields (S (S m)) ?ts)
          with (let* (f, r) := p_rowfield (S m) ts in
                match eat_sym "," r with
                | Some r1 => let* (fs, r2) := p_rowfields (S m) r1 in Ok (f :: fs, r2)
                | None => Ok ([f], r)
                end).
        rewrite Hrf; [| lia | eexists; left; reflexivity].
        cbn [bind]. cbn [eat_sym String.eqb Ascii.eqb Bool.eqb].
        rewrite IHr; [reflexivity | exact Hwr | cbn; lia | cbn [length]; lia]. }
    assert (Hl0 : length l <> 0) by (destruct l; [discriminate | cbn; lia]).
    cbn [p_type].
    assert (E : p_type_prim (S n) (type_toks low (TRow l) ++ rest)%list
                = Ok (type_ptree low (TRow l), rest)).
    { cbn [type_toks app]. rewrite <- app_assoc. cbn [app].
      rewrite (wt_kw low "ROW") by (vm_compute; reflexivity). cbn [p_type_prim String.eqb Ascii.eqb Bool.eqb eat_sym].
      rewrite Hfs by lia. reflexivity. }
    rewrite E. cbn [bind]. apply p_type_suffix_end; [nz | exact Hf].
  - (* QDIGEST *)
    cbn [type_toks length] in Hn; rewrite app_length in Hn; cbn [length] in Hn.
    destruct n as [|[|[|[|[|n]]]]]; try lia.
    cbn [type_toks app]. rewrite <- app_assoc. cbn [app].
    apply (p_generic_params low "QDIGEST"); [apply (type_name_generic low (TQdigest t)) | exact Hf |].
    cbn [p_typeparams].
    rewrite (p_typeparam_type low t n _ (TSym ")" :: rest) (type_ptree low t)).
    + reflexivity.
    + apply IH; [exact Hwf | lia | reflexivity].
Qed.

(** * Visitors *)

Lemma Z_of_text z : (0 <= z)%Z -> Z.of_N (N_of_str (str_of_Z z)) = z.
Proof. intro H; rewrite str_of_Z_nonneg, N_of_str_of_N, Z2N.id by exact H; reflexivity. Qed.

Lemma wf_constructible t : wf_type t = true -> constructible t = true.
Proof.
  induction t as [s|p s|m|m|p z|p z|k|t IH|k v IHk IHv|l IH|t IH] using dtype_ind';
    cbn [wf_type constructible]; auto.
  - rewrite !andb_true_iff; tauto.
  - rewrite !andb_true_iff; intros [? ?]; auto.
  - rewrite andb_true_iff; intros [_ H].
    rewrite forallb_forall in *. rewrite Forall_forall in IH. auto.
Qed.

(** Only the top-level check matters: nested types are already objects. *)
Definition top_ok (t : dtype) : bool :=
  match t with
  | TDecimal p _ => (0 <=? p) && (p <=? 38)
  | TTime p _ | TTimestamp p _ => opt_prec_ok p
  | _ => true
  end%Z%bool.
Lemma constructible_top t : constructible t = true -> top_ok t = true.
Proof. destruct t; cbn; auto. Qed.
Lemma mk_raw t : top_ok t = true ->
  mk_datatype (type_name t) (rparams (raw_of t)) = Ok (raw_of t).
Proof.
  destruct t as [s|p s|m|m|p z|p z|k|t|k v|l|t]; cbn [type_name raw_of rparams top_ok]; intro H.
  - destruct s; reflexivity.
  - apply andb_true_iff in H; destruct H as [H1 H2].
    cbv - [Z.leb]. rewrite H1, H2. reflexivity.
  - destruct m; reflexivity.
  - reflexivity.
  - destruct p as [p|]; cbn [opt_prec_ok] in H; [|reflexivity].
    apply andb_true_iff in H; destruct H as [H1 H2].
    cbv - [Z.leb]. rewrite H1, H2. reflexivity.
  - destruct p as [p|]; cbn [opt_prec_ok] in H; [|reflexivity].
    apply andb_true_iff in H; destruct H as [H1 H2].
    cbv - [Z.leb]. rewrite H1, H2. reflexivity.
  - destruct k; reflexivity.
  - reflexivity.
  - reflexivity.
  - unfold mk_datatype. cbn [upper str_map].
    change (upper "ROW") with "ROW". cbn [mem]. change (mem "ROW" allowed_types) with true.
    cbn [py_assert bind]. cbn -[raw_of map].
    assert (E : forallb (fun x => isinstance x KDT) (map (fun t => PDT (raw_of t)) l) = true).
    { apply forallb_forall; intros x Hx; apply in_map_iff in Hx; destruct Hx as (? & <- & _); reflexivity. }
    cbn [isinstance] in E. rewrite E. reflexivity.
  - reflexivity.
Qed.

Lemma visit_type_ok low t :
  wf_type t = true -> (low = true -> interval_free t = true) ->
  visit_type (type_ptree low t) = Ok (raw_of t).
Proof.
  induction t as [s|p s|m|m|p z|p z|k|t IH|k v IHk IHv|l IH|t IH] using dtype_ind';
    intros Hwf Hi; cbn [type_ptree wf_type interval_free] in *.
  - destruct s, low; reflexivity.
  - rewrite !andb_true_iff, !Z.leb_le in Hwf. destruct Hwf as [[Hp Hp'] Hs].
    cbn [visit_type visit_typeparam bind visit_ident]. rewrite !Z_of_text by assumption.
    replace (upper (w low "DECIMAL")) with "DECIMAL" by (destruct low; reflexivity).
    apply (mk_raw (TDecimal p s)). cbn. rewrite andb_true_iff, !Z.leb_le; auto.
  - destruct m as [m|].
    + cbn in Hwf; rewrite Z.leb_le in Hwf.
      cbn [visit_type visit_typeparam bind visit_ident]. rewrite Z_of_text by assumption.
      destruct low; reflexivity.
    + destruct low; reflexivity.
  - rewrite Z.leb_le in Hwf.
    cbn [visit_type visit_typeparam bind visit_ident]. rewrite Z_of_text by assumption.
    destruct low; reflexivity.
  - destruct p as [p|]; cbn [option_map visit_type visit_typeparam bind].
    + rewrite Z_of_text by (cbn in Hwf; rewrite andb_true_iff, !Z.leb_le in Hwf; tauto).
      apply (mk_raw (TTime (Some p) z)); exact Hwf.
    + apply (mk_raw (TTime None z)); reflexivity.
  - destruct p as [p|]; cbn [option_map visit_type visit_typeparam bind].
    + rewrite Z_of_text by (cbn in Hwf; rewrite andb_true_iff, !Z.leb_le in Hwf; tauto).
      apply (mk_raw (TTimestamp (Some p) z)); exact Hwf.
    + apply (mk_raw (TTimestamp None z)); reflexivity.
  - destruct low; [specialize (Hi eq_refl); discriminate|]. destruct k; reflexivity.
  - cbn [visit_type visit_typeparam bind visit_ident]. rewrite (IH Hwf Hi).
    destruct low; reflexivity.
  - apply andb_true_iff in Hwf; destruct Hwf as [Hk Hv].
    cbn [visit_type visit_typeparam bind visit_ident].
    rewrite IHk by (auto; intro E; specialize (Hi E); apply andb_true_iff in Hi; tauto).
    rewrite IHv by (auto; intro E; specialize (Hi E); apply andb_true_iff in Hi; tauto).
    destruct low; reflexivity.
  - apply andb_true_iff in Hwf; destruct Hwf as [_ Hl].
    cbn [visit_type].
    match goal with |- context [bind (?f (map _ l)) _] => set (go := f) end.
    assert (Hgo : go (map (fun t => PRowField None (type_ptree low t)) l)
                  = Ok (map (fun t => PDT (raw_of t)) l)).
    { clear - IH Hl Hi. induction IH as [|x r Hx Hr IHr]; [reflexivity|].
      cbn [forallb] in *. apply andb_true_iff in Hl; destruct Hl as [Hwx Hwr].
      cbn [map go]. cbn [visit_rowfield py_assert bind].
      rewrite Hx by (auto; intro E; specialize (Hi E); apply andb_true_iff in Hi; tauto).
      fold go. rewrite IHr by (auto; intro E; specialize (Hi E); apply andb_true_iff in Hi; tauto).
      reflexivity. }
    rewrite Hgo. cbn [bind]. apply (mk_raw (TRow l)); reflexivity.
  - cbn [visit_type visit_typeparam bind visit_ident]. rewrite (IH Hwf Hi).
    destruct low; reflexivity.
Qed.

Lemma type_round_trip_c low t :
  wf_type t = true -> (low = true -> interval_free t = true) ->
  type_from_sql (type_sql_c low t) = Ok (raw_of t).
Proof.
  intros Hwf Hi. unfold type_from_sql, p_standalone_type.
  rewrite (lexes_lex _ _ (lexes_type low t Hwf)).
  pose proof (p_type_ok low t Hwf (type_fuel (type_toks low t)) []) as Hp.
  rewrite app_nil_r in Hp. rewrite Hp; [| unfold type_fuel; lia | reflexivity].
  cbn [bind]. now apply visit_type_ok.
Qed.

Lemma type_round_trip t : wf_type t = true -> type_from_sql (type_sql t) = Ok (raw_of t).
Proof. intro H; rewrite <- type_sql_c_false; apply type_round_trip_c; [exact H | discriminate]. Qed.
Lemma type_round_trip_lower t : wf_type t = true -> interval_free t = true ->
  type_from_sql (lower (type_sql t)) = Ok (raw_of t).
Proof. intros H Hi; rewrite <- type_sql_c_true; apply type_round_trip_c; auto. Qed.

(** * From arbitrary constructed objects to canonical types *)

Lemma raw_of_inj a b : raw_of a = raw_of b -> a = b.
Proof.
  revert b; induction a as [s|p s|m|m|p z|p z|k|t IH|k v IHk IHv|l IH|t IH] using dtype_ind'; intro b.
  - destruct b as [s'| | | | | | | | | |]; cbn; intro H; try (destruct s; discriminate H).
    injection H as H. f_equal; now apply simple_name_inj.
  - destruct b as [s'| | | | | | | | | |]; cbn; intro H; try (destruct s'; discriminate H); try discriminate H.
    injection H as -> ->; reflexivity.
  - destruct b as [s'| | m' | | | | | | | |]; cbn; intro H; try (destruct s'; discriminate H); try discriminate H.
    destruct m as [m|], m' as [m'|]; cbn in H; try discriminate H; [injection H as ->; reflexivity | reflexivity].
  - destruct b as [s'| | | | | | | | | |]; cbn; intro H; try (destruct s'; discriminate H); try discriminate H.
    injection H as ->; reflexivity.
  - destruct b as [s'| | | |p' z'| | | | | |]; cbn; intro H; try (destruct s'; discriminate H); try discriminate H.
    destruct p as [p|], p' as [p'|]; cbn in H; try discriminate H.
    + injection H as -> ->; reflexivity.
    + injection H as ->; reflexivity.
  - destruct b as [s'| | | | |p' z'| | | | |]; cbn; intro H; try (destruct s'; discriminate H); try discriminate H.
    destruct p as [p|], p' as [p'|]; cbn in H; try discriminate H.
    + injection H as -> ->; reflexivity.
    + injection H as ->; reflexivity.
  - destruct b as [s'| | | | | |k'| | | |]; cbn; intro H; try (destruct s'; discriminate H); try discriminate H.
    destruct k, k'; (reflexivity || discriminate H).
  - destruct b as [s'| | | | | | | | | |]; cbn; intro H; try (destruct s'; discriminate H); try discriminate H.
    injection H as H; f_equal; auto.
  - destruct b as [s'| | | | | | | | | |]; cbn; intro H; try (destruct s'; discriminate H); try discriminate H.
    injection H as H1 H2; f_equal; auto.
  - destruct b as [s'| | | | | | | | |l'|]; cbn; intro H; try (destruct s'; discriminate H); try discriminate H.
    injection H as H. f_equal. revert l' H.
    induction IH as [|x r Hx Hr IHr]; intros [|y r'] H; try discriminate H; [reflexivity|].
    cbn in H. injection H as H1 H2. f_equal; auto.
  - destruct b as [s'| | | | | | | | | |]; cbn; intro H; try (destruct s'; discriminate H); try discriminate H.
    injection H as H; f_equal; auto.
Qed.

(** C03 on canonical types. *)
Lemma type_sql_inj a b : wf_type a = true -> wf_type b = true -> type_sql a = type_sql b -> a = b.
Proof.
  intros Ha Hb E. apply raw_of_inj.
  pose proof (type_round_trip a Ha) as H1. pose proof (type_round_trip b Hb) as H2.
  rewrite E, H2 in H1. now injection H1.
Qed.
