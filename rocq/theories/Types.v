(** Model of treeno/datatypes/types.py and treeno/datatypes/builder.py. *)
From Coq Require Import String Ascii List ZArith Bool.
From Verif Require Import PyStr.
Import ListNotations.
Open Scope string_scope.

(** * Raw level: what the constructor accepts *)

(** Python values that can be passed as a type parameter, and [DataType]
    objects (types.py 67-76: [type_name], [parameters]); a dict is an
    association list with distinct keys in insertion order. *)
Inductive pval :=
| PInt (z : Z) | PBool (b : bool) | PStr (s : string) | PNone
| PDT (t : rawdt) | PList (l : list pval)
with rawdt := RDT (name : string) (params : list (string * pval)).

Definition rname (t : rawdt) : string := let 'RDT n _ := t in n.
Definition rparams (t : rawdt) : list (string * pval) := let 'RDT _ p := t in p.

(** types.py 37-64. *)
Definition allowed_types : list string :=
  ["BOOLEAN"; "INTEGER"; "TINYINT"; "SMALLINT"; "BIGINT"; "REAL"; "DOUBLE";
   "DECIMAL"; "VARCHAR"; "CHAR"; "VARBINARY"; "JSON"; "DATE"; "TIME";
   "TIMESTAMP"; "INTERVAL"; "IPADDRESS"; "UUID"; "HYPERLOGLOG";
   "P4HYPERLOGLOG"; "QDIGEST"; "TDIGEST"; "ARRAY"; "MAP"; "ROW"; "UNKNOWN"].

(** types.py 144-151 [TypeParameter] ([validator] is never used). *)
Inductive pkind := KInt | KBool | KStr | KDT | KList.
Record tparam := mkP { pname : string; prequired : bool; pkind_of : pkind;
                       pdefault : option pval }.

(** Python [isinstance(v, kind)]; [bool] is a subclass of [int]. *)
Definition isinstance (v : pval) (k : pkind) : bool :=
  match k, v with
  | KInt, PInt _ | KInt, PBool _ | KBool, PBool _ | KStr, PStr _
  | KDT, PDT _ | KList, PList _ => true
  | _, _ => false
  end.

(** types.py 238-277 [FIELDS] (a defaultdict: other names have no fields). *)
Definition fields (name : string) : list tparam :=
  if String.eqb name "DECIMAL" then
    [mkP "precision" false KInt (Some (PInt 38)); mkP "scale" false KInt (Some (PInt 0))]
  else if String.eqb name "VARCHAR" then [mkP "max_chars" false KInt None]
  else if String.eqb name "CHAR" then [mkP "max_chars" false KInt (Some (PInt 1))]
  else if (String.eqb name "TIME" || String.eqb name "TIMESTAMP")%bool then
    [mkP "precision" false KInt None; mkP "timezone" false KBool (Some (PBool false))]
  else if String.eqb name "ARRAY" then [mkP "dtype" true KDT None]
  else if String.eqb name "MAP" then
    [mkP "from_dtype" true KDT None; mkP "to_dtype" true KDT None]
  else if String.eqb name "ROW" then [mkP "dtypes" true KList None]
  else if String.eqb name "INTERVAL" then
    [mkP "from_interval" true KStr None; mkP "to_interval" true KStr None]
  else if String.eqb name "QDIGEST" then [mkP "dtype" true KDT None]
  else [].

(** types.py 83-101, the loop body: fill in the default, then check presence
    and kind. *)
Definition check_field (f : tparam) (ps : list (string * pval))
  : result (list (string * pval)) :=
  match assoc (pname f) ps with
  | None =>
      if prequired f then Err AssertionError
      else match pdefault f with
           | None => Ok ps
           | Some d =>
               let* _ := py_assert (isinstance d (pkind_of f)) in
               Ok (ps ++ [(pname f, d)])%list
           end
  | Some v => let* _ := py_assert (isinstance v (pkind_of f)) in Ok ps
  end.
Fixpoint check_fields (fs : list tparam) (ps : list (string * pval))
  : result (list (string * pval)) :=
  match fs with
  | [] => Ok ps
  | f :: fs' => let* ps' := check_field f ps in check_fields fs' ps'
  end.

(** Integer value of an [int] (a [bool] counts as 0 or 1). *)
Definition int_of (v : pval) : result Z :=
  match v with
  | PInt z => Ok z
  | PBool b => Ok (if b then 1 else 0)%Z
  | _ => Err TypeError
  end.
Definition get (k : string) (ps : list (string * pval)) : result pval :=
  match assoc k ps with Some v => Ok v | None => Err KeyError end.

Definition nonparametric : list string :=
  ["BOOLEAN"; "INTEGER"; "TINYINT"; "SMALLINT"; "BIGINT"; "REAL"; "DOUBLE";
   "VARBINARY"; "JSON"; "DATE"; "IPADDRESS"; "UUID"; "HYPERLOGLOG";
   "P4HYPERLOGLOG"; "TDIGEST"; "UNKNOWN"].

(** types.py 181-186. *)
Definition validate_timelike (ps : list (string * pval)) : result unit :=
  match assoc "precision" ps with
  | None | Some PNone => Ok tt
  | Some v => let* z := int_of v in py_assert ((0 <=? z) && (z <=? 12))%Z
  end.
(** types.py 208-211. *)
Definition validate_decimal (ps : list (string * pval)) : result unit :=
  let* v := get "precision" ps in
  let* z := int_of v in
  py_assert ((0 <=? z) && (z <=? 38))%Z.
(** types.py 189-191. *)
Definition validate_single_dtype (ps : list (string * pval)) : result unit :=
  let* v := get "dtype" ps in py_assert (isinstance v KDT).
(** types.py 194-198. *)
Definition validate_map (ps : list (string * pval)) : result unit :=
  let* f := get "from_dtype" ps in
  let* t := get "to_dtype" ps in
  let* _ := py_assert (isinstance f KDT) in
  py_assert (isinstance t KDT).
(** types.py 201-205. *)
Definition validate_row (ps : list (string * pval)) : result unit :=
  let* v := get "dtypes" ps in
  match v with
  | PList l => py_assert (forallb (fun x => isinstance x KDT) l)
  | _ => Err TypeError
  end.
(** types.py 214-218. *)
Definition validate_nonparametric (ps : list (string * pval)) : result unit :=
  py_assert (Nat.eqb (length ps) 0).
(** types.py 221-235. *)
Definition validate_interval (ps : list (string * pval)) : result unit :=
  let* f := get "from_interval" ps in
  let* t := get "to_interval" ps in
  match f, t with
  | PStr f, PStr t =>
      let* _ := py_assert (String.eqb f "YEAR" || String.eqb f "DAY")%bool in
      if String.eqb f "YEAR" then py_assert (String.eqb t "MONTH")
      else py_assert (String.eqb t "SECOND")
  | _, _ => Err AssertionError
  end.

(** types.py 279-304 [VALIDATORS]. *)
Definition validate (name : string) (ps : list (string * pval)) : result unit :=
  if mem name nonparametric then validate_nonparametric ps
  else if (String.eqb name "TIME" || String.eqb name "TIMESTAMP")%bool
  then validate_timelike ps
  else if (String.eqb name "QDIGEST" || String.eqb name "ARRAY")%bool
  then validate_single_dtype ps
  else if String.eqb name "MAP" then validate_map ps
  else if String.eqb name "ROW" then validate_row ps
  else if String.eqb name "INTERVAL" then validate_interval ps
  else if String.eqb name "DECIMAL" then validate_decimal ps
  else Ok tt.

(** types.py 78-110 [DataType.__attrs_post_init__]. *)
Definition mk_datatype (name : string) (ps : list (string * pval)) : result rawdt :=
  let name := upper name in
  let* _ := py_assert (mem name allowed_types) in
  let* ps := check_fields (fields name) ps in
  let* _ := py_assert (forallb (fun kv => mem (fst kv) (map pname (fields name))) ps) in
  let* _ := validate name ps in
  Ok (RDT name ps).

(** [str] of a parameter value, and types.py 112-137, 154-178: [DataType.sql],
    [emit_interval], [emit_timelike], [emit_row].  A list occurs only as the
    [dtypes] of a ROW, so its text here is the one [emit_row] makes.  Texts of
    the parameters are computed eagerly but kept as results, so that only the
    ones Python looks at can fail. *)
Fixpoint raw_sql (t : rawdt) : result string :=
  let 'RDT name ps := t in
  let shown := (fix go (ps : list (string * pval)) : list (string * result string) :=
                  match ps with
                  | [] => []
                  | (k, v) :: r => (k, pval_str v) :: go r
                  end) ps in
  let look k := match assoc k shown with Some r => r | None => Err KeyError end in
  if (String.eqb name "TIMESTAMP" || String.eqb name "TIME")%bool then
    let* p := match assoc "precision" ps with
              | None | Some PNone => Ok ""
              | Some _ => let* s := look "precision" in Ok ("(" ++ s ++ ")")
              end in
    let z := match assoc "timezone" ps with Some (PBool true) => " WITH TIME ZONE" | _ => "" end in
    Ok (name ++ p ++ z)
  else if String.eqb name "INTERVAL" then
    let* f := look "from_interval" in
    let* t := look "to_interval" in
    Ok (name ++ " " ++ f ++ " TO " ++ t)
  else if String.eqb name "ROW" then
    let* s := look "dtypes" in Ok (name ++ "(" ++ s ++ ")")
  else
    match ps with
    | [] => Ok name
    | _ =>
        let* vs := map_result (fun f => match assoc (pname f) shown with
                                        | Some r => r
                                        | None => Err AssertionError
                                        end) (fields name) in
        Ok (name ++ "(" ++ join "," vs ++ ")")
    end
with pval_str (v : pval) : result string :=
  match v with
  | PInt z => Ok (str_of_Z z)
  | PBool b => Ok (if b then "True" else "False")
  | PStr s => Ok s
  | PNone => Ok "None"
  | PDT t => raw_sql t
  | PList l =>
      let* ss := (fix go (l : list pval) : result (list string) :=
                    match l with
                    | [] => Ok []
                    | v :: r => let* s := pval_str v in let* ss := go r in Ok (s :: ss)
                    end) l in
      Ok (join "," ss)
  end.

(** * Canonical level: the objects the constructor builds

    Integer parameters are integers here (Python also lets a [bool] through). *)

Inductive simple :=
| SBoolean | SInteger | STinyint | SSmallint | SBigint | SReal | SDouble
| SVarbinary | SJson | SDate | SIp | SUuid | SHll | SP4hll | STdigest | SUnknown.

Inductive ivkind := YearToMonth | DayToSecond.

Inductive dtype :=
| TSimple (s : simple)
| TDecimal (precision scale : Z)
| TVarchar (max_chars : option Z)
| TChar (max_chars : Z)
| TTime (precision : option Z) (timezone : bool)
| TTimestamp (precision : option Z) (timezone : bool)
| TInterval (k : ivkind)
| TArray (t : dtype)
| TMap (k v : dtype)
| TRow (l : list dtype)
| TQdigest (t : dtype).

Definition simple_name (s : simple) : string :=
  match s with
  | SBoolean => "BOOLEAN" | SInteger => "INTEGER" | STinyint => "TINYINT"
  | SSmallint => "SMALLINT" | SBigint => "BIGINT" | SReal => "REAL"
  | SDouble => "DOUBLE" | SVarbinary => "VARBINARY" | SJson => "JSON"
  | SDate => "DATE" | SIp => "IPADDRESS" | SUuid => "UUID"
  | SHll => "HYPERLOGLOG" | SP4hll => "P4HYPERLOGLOG" | STdigest => "TDIGEST"
  | SUnknown => "UNKNOWN"
  end.
Definition all_simple : list simple :=
  [SBoolean; SInteger; STinyint; SSmallint; SBigint; SReal; SDouble; SVarbinary;
   SJson; SDate; SIp; SUuid; SHll; SP4hll; STdigest; SUnknown].

Definition iv_from (k : ivkind) : string :=
  match k with YearToMonth => "YEAR" | DayToSecond => "DAY" end.
Definition iv_to (k : ivkind) : string :=
  match k with YearToMonth => "MONTH" | DayToSecond => "SECOND" end.

(** [type_name] of the object. *)
Definition type_name (t : dtype) : string :=
  match t with
  | TSimple s => simple_name s
  | TDecimal _ _ => "DECIMAL" | TVarchar _ => "VARCHAR" | TChar _ => "CHAR"
  | TTime _ _ => "TIME" | TTimestamp _ _ => "TIMESTAMP"
  | TInterval _ => "INTERVAL" | TArray _ => "ARRAY" | TMap _ _ => "MAP"
  | TRow _ => "ROW" | TQdigest _ => "QDIGEST"
  end.

(** The parameter dict of the object, in the order of [FIELDS]. *)
Definition opt_int (k : string) (o : option Z) : list (string * pval) :=
  match o with None => [] | Some z => [(k, PInt z)] end.
Fixpoint raw_of (t : dtype) : rawdt :=
  match t with
  | TSimple s => RDT (simple_name s) []
  | TDecimal p s => RDT "DECIMAL" [("precision", PInt p); ("scale", PInt s)]
  | TVarchar m => RDT "VARCHAR" (opt_int "max_chars" m)
  | TChar m => RDT "CHAR" [("max_chars", PInt m)]
  | TTime p z => RDT "TIME" (opt_int "precision" p ++ [("timezone", PBool z)])%list
  | TTimestamp p z => RDT "TIMESTAMP" (opt_int "precision" p ++ [("timezone", PBool z)])%list
  | TInterval k => RDT "INTERVAL" [("from_interval", PStr (iv_from k)); ("to_interval", PStr (iv_to k))]
  | TArray t => RDT "ARRAY" [("dtype", PDT (raw_of t))]
  | TMap k v => RDT "MAP" [("from_dtype", PDT (raw_of k)); ("to_dtype", PDT (raw_of v))]
  | TRow l => RDT "ROW" [("dtypes", PList (map (fun t => PDT (raw_of t)) l))]
  | TQdigest t => RDT "QDIGEST" [("dtype", PDT (raw_of t))]
  end.

(** Parameter ranges that the constructor enforces. *)
Definition opt_prec_ok (o : option Z) : bool :=
  match o with None => true | Some z => (0 <=? z) && (z <=? 12) end%Z.
Fixpoint constructible (t : dtype) : bool :=
  match t with
  | TDecimal p _ => (0 <=? p) && (p <=? 38)
  | TTime p _ | TTimestamp p _ => opt_prec_ok p
  | TArray t | TQdigest t => constructible t
  | TMap k v => constructible k && constructible v
  | TRow l => forallb constructible l
  | _ => true
  end%Z.

(** * Builders (builder.py) on canonical types, with their range checks *)
Definition unknown : dtype := TSimple SUnknown.
Definition boolean : dtype := TSimple SBoolean.
Definition bigint : dtype := TSimple SBigint.
Definition integer : dtype := TSimple SInteger.
Definition double : dtype := TSimple SDouble.
(** builder.py 42-43 with both arguments given, types.py 208-211. *)
Definition decimal (p s : Z) : result dtype :=
  let* _ := py_assert ((0 <=? p) && (p <=? 38))%Z in Ok (TDecimal p s).
(** builder.py 66-71 with [precision] (if any) and [timezone]. *)
Definition time (p : option Z) (z : bool) : result dtype :=
  let* _ := py_assert (opt_prec_ok p) in Ok (TTime p z).
Definition timestamp (p : option Z) (z : bool) : result dtype :=
  let* _ := py_assert (opt_prec_ok p) in Ok (TTimestamp p z).

(** * Printing (types.py 112-137, 154-178) *)

(** [str] of a parameter value is only ever applied to integers and types. *)
Definition timelike_sql (name : string) (p : option Z) (z : bool) : string :=
  name ++ match p with None => "" | Some n => "(" ++ str_of_Z n ++ ")" end
       ++ (if z then " WITH TIME ZONE" else "").

Fixpoint type_sql (t : dtype) : string :=
  match t with
  | TSimple s => simple_name s
  | TDecimal p s => "DECIMAL(" ++ str_of_Z p ++ "," ++ str_of_Z s ++ ")"
  | TVarchar None => "VARCHAR"
  | TVarchar (Some n) => "VARCHAR(" ++ str_of_Z n ++ ")"
  | TChar n => "CHAR(" ++ str_of_Z n ++ ")"
  | TTime p z => timelike_sql "TIME" p z
  | TTimestamp p z => timelike_sql "TIMESTAMP" p z
  | TInterval k => "INTERVAL " ++ iv_from k ++ " TO " ++ iv_to k
  | TArray t => "ARRAY(" ++ type_sql t ++ ")"
  | TMap k v => "MAP(" ++ type_sql k ++ "," ++ type_sql v ++ ")"
  | TRow l => "ROW(" ++ join "," (map type_sql l) ++ ")"
  | TQdigest t => "QDIGEST(" ++ type_sql t ++ ")"
  end.

(** * Python equality of types (attrs [==]: name and parameter dict) *)
Definition simple_eqb (a b : simple) : bool := String.eqb (simple_name a) (simple_name b).
Definition iv_eqb (a b : ivkind) : bool := String.eqb (iv_from a) (iv_from b).
Definition optZ_eqb (a b : option Z) : bool :=
  match a, b with
  | None, None => true | Some x, Some y => Z.eqb x y | _, _ => false
  end.
Fixpoint dtype_eqb (a b : dtype) {struct a} : bool :=
  match a, b with
  | TSimple x, TSimple y => simple_eqb x y
  | TDecimal p s, TDecimal p' s' => Z.eqb p p' && Z.eqb s s'
  | TVarchar m, TVarchar m' => optZ_eqb m m'
  | TChar m, TChar m' => Z.eqb m m'
  | TTime p z, TTime p' z' | TTimestamp p z, TTimestamp p' z' =>
      optZ_eqb p p' && Bool.eqb z z'
  | TInterval k, TInterval k' => iv_eqb k k'
  | TArray t, TArray t' | TQdigest t, TQdigest t' => dtype_eqb t t'
  | TMap k v, TMap k' v' => dtype_eqb k k' && dtype_eqb v v'
  | TRow l, TRow l' =>
      (fix go l l' := match l, l' with
                      | [], [] => true
                      | x :: r, y :: r' => dtype_eqb x y && go r r'
                      | _, _ => false
                      end) l l'
  | _, _ => false
  end%bool.

Definition is_unknown (t : dtype) : bool := dtype_eqb t unknown.
