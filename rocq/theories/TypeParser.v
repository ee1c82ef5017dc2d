(** Parsing of data types: SqlBase.g4 rules [standaloneType], [type_],
    [rowField], [typeParameter], [intervalField], [identifier]; and their
    visitors in builder/convert.py.

    ANTLR predicts alternatives with unbounded look-ahead; the functions below
    make the same choice with the look-ahead written out, trying the
    alternatives in grammar order where several remain. *)
From Coq Require Import String Ascii List ZArith NArith Bool.
From Verif Require Import PyStr Types Lexer.
Import ListNotations.
Open Scope string_scope.

(** A parser consumes a prefix of the tokens. *)
Definition pres (A : Type) := result (A * list token).

Definition eat_kw (k : string) (ts : list token) : option (list token) :=
  match ts with
  | TKw k' _ :: r => if String.eqb k' k then Some r else None
  | _ => None
  end.
Definition eat_sym (s : string) (ts : list token) : option (list token) :=
  match ts with
  | TSym s' :: r => if String.eqb s' s then Some r else None
  | _ => None
  end.
Definition need (o : option (list token)) : result (list token) :=
  match o with Some r => Ok r | None => Err SyntaxErr end.
(** Try the next alternative after a syntax error (not when out of fuel). *)
Definition orelse {A} (r : result A) (k : unit -> result A) : result A :=
  match r with Err SyntaxErr => k tt | _ => r end.

(** SqlBase.g4 814-820 [identifier], with the text as read. *)
Inductive pident := IdUnquoted (t : string) | IdQuoted (t : string)
                  | IdBack (t : string) | IdDigit (t : string).

Definition p_ident (ts : list token) : pres pident :=
  match ts with
  | TId t :: r => Ok (IdUnquoted t, r)
  | TQuoted t :: r => Ok (IdQuoted t, r)
  | TKw k t :: r => if mem k non_reserved then Ok (IdUnquoted t, r) else Err SyntaxErr
  | TBack t :: r => Ok (IdBack t, r)
  | TDigitId t :: r => Ok (IdDigit t, r)
  | _ => Err SyntaxErr
  end.

(** convert.py 955-977 visitQuotedIdentifier .. visitDigitIdentifier. *)
Definition visit_ident (i : pident) : result string :=
  match i with
  | IdUnquoted t => Ok t
  | IdQuoted t => Ok (strip dquote t)
  | IdBack _ | IdDigit _ => Err NotImplementedError
  end.

(** Parse trees of SqlBase.g4 652-672. *)
Inductive ptype :=
| PTRow (fs : list prowfield)
| PTInterval (from_ : string) (to : option string)
| PTDateTime (is_timestamp : bool) (precision : option ptparam) (with_tz : bool)
| PTDoublePrecision
| PTLegacyArray (t : ptype)
| PTLegacyMap (k v : ptype)
| PTArraySuffix (t : ptype) (size : option string)
| PTGeneric (name : pident) (params : list ptparam)
with ptparam := PPInt (txt : string) | PPType (t : ptype)
with prowfield := PRowField (name : option pident) (t : ptype).

(** SqlBase.g4 644-646. *)
Definition interval_fields := ["YEAR"; "MONTH"; "DAY"; "HOUR"; "MINUTE"; "SECOND"].
Definition p_interval_field (ts : list token) : pres string :=
  match ts with
  | TKw k t :: r => if mem k interval_fields then Ok (t, r) else Err SyntaxErr
  | _ => Err SyntaxErr
  end.

(** [(WITHOUT TIME ZONE)?] / [WITH TIME ZONE] of the dateTimeType alternatives. *)
Definition p_zone (ts : list token) : pres bool :=
  match eat_kw "WITHOUT" ts with
  | Some r =>
      orelse (let* r := need (eat_kw "TIME" r) in
              let* r := need (eat_kw "ZONE" r) in Ok (false, r)) (fun _ => Ok (false, ts))
  | None =>
      match eat_kw "WITH" ts with
      | Some r =>
          orelse (let* r := need (eat_kw "TIME" r) in
                  let* r := need (eat_kw "ZONE" r) in Ok (true, r)) (fun _ => Ok (false, ts))
      | None => Ok (false, ts)
      end
  end.

(** The left-recursive alternative type_ ARRAY ('[' INTEGER_VALUE ']')? *)
Fixpoint p_type_suffix (n : nat) (t : ptype) (ts : list token) {struct n} : pres ptype :=
  match n with
  | O => Err OutOfFuel
  | S n =>
      match eat_kw "ARRAY" ts with
      | None => Ok (t, ts)
      | Some r =>
          match eat_sym "[" r with
          | None => p_type_suffix n (PTArraySuffix t None) r
          | Some (TInt k :: r2) =>
              let* r3 := need (eat_sym "]" r2) in
              p_type_suffix n (PTArraySuffix t (Some k)) r3
          | Some _ => Err SyntaxErr
          end
      end
  end.

Fixpoint p_type (n : nat) (ts : list token) {struct n} : pres ptype :=
  match n with
  | O => Err OutOfFuel
  | S n => let* (t, r) := p_type_prim n ts in p_type_suffix n t r
  end
with p_type_prim (n : nat) (ts : list token) {struct n} : pres ptype :=
  match n with
  | O => Err OutOfFuel
  | S n =>
      let generic tt := p_generic n ts in
      match ts with
      | TKw k _ :: r =>
          if String.eqb k "ROW" then
            match eat_sym "(" r with
            | Some r1 =>
                orelse (let* (fs, r2) := p_rowfields n r1 in
                        let* r3 := need (eat_sym ")" r2) in
                        Ok (PTRow fs, r3)) generic
            | None => generic tt
            end
          else if String.eqb k "INTERVAL" then
            match p_interval_field r with
            | Ok (f, r1) =>
                match eat_kw "TO" r1 with
                | Some r2 =>
                    let* (t, r3) := p_interval_field r2 in
                    Ok (PTInterval f (Some t), r3)
                | None => Ok (PTInterval f None, r1)
                end
            | Err _ => generic tt
            end
          else if (String.eqb k "TIMESTAMP" || String.eqb k "TIME")%bool then
            let* (p, r1) :=
              match eat_sym "(" r with
              | Some r1 =>
                  let* (p, r2) := p_typeparam n r1 in
                  let* r3 := need (eat_sym ")" r2) in Ok (Some p, r3)
              | None => Ok (None, r)
              end in
            let* (z, r2) := p_zone r1 in
            Ok (PTDateTime (String.eqb k "TIMESTAMP") p z, r2)
          else if String.eqb k "DOUBLE" then
            match eat_kw "PRECISION" r with
            | Some r1 => Ok (PTDoublePrecision, r1)
            | None => generic tt
            end
          else if String.eqb k "ARRAY" then
            match eat_sym "<" r with
            | Some r1 =>
                let* (t, r2) := p_type n r1 in
                let* r3 := need (eat_sym ">" r2) in Ok (PTLegacyArray t, r3)
            | None => generic tt
            end
          else if String.eqb k "MAP" then
            match eat_sym "<" r with
            | Some r1 =>
                let* (kt, r2) := p_type n r1 in
                let* r3 := need (eat_sym "," r2) in
                let* (vt, r4) := p_type n r3 in
                let* r5 := need (eat_sym ">" r4) in Ok (PTLegacyMap kt vt, r5)
            | None => generic tt
            end
          else generic tt
      | _ => generic tt
      end
  end
(* identifier ('(' typeParameter (',' typeParameter)* ')')? *)
with p_generic (n : nat) (ts : list token) {struct n} : pres ptype :=
  match n with
  | O => Err OutOfFuel
  | S n =>
      let* (i, r) := p_ident ts in
      match eat_sym "(" r with
      | Some r1 =>
          let* (ps, r2) := p_typeparams n r1 in
          let* r3 := need (eat_sym ")" r2) in Ok (PTGeneric i ps, r3)
      | None => Ok (PTGeneric i [], r)
      end
  end
with p_typeparam (n : nat) (ts : list token) {struct n} : pres ptparam :=
  match n with
  | O => Err OutOfFuel
  | S n =>
      match ts with
      | TInt t :: r => Ok (PPInt t, r)
      | _ => let* (t, r) := p_type n ts in Ok (PPType t, r)
      end
  end
with p_typeparams (n : nat) (ts : list token) {struct n} : pres (list ptparam) :=
  match n with
  | O => Err OutOfFuel
  | S n =>
      let* (p, r) := p_typeparam n ts in
      match eat_sym "," r with
      | Some r1 => let* (ps, r2) := p_typeparams n r1 in Ok (p :: ps, r2)
      | None => Ok ([p], r)
      end
  end
(* rowField: type_ | identifier type_ ; a rowField is followed by ',' or ')' *)
with p_rowfield (n : nat) (ts : list token) {struct n} : pres prowfield :=
  match n with
  | O => Err OutOfFuel
  | S n =>
      orelse
        (let* (t, r) := p_type n ts in
         match eat_sym "," r, eat_sym ")" r with
         | None, None => Err SyntaxErr
         | _, _ => Ok (PRowField None t, r)
         end)
        (fun _ =>
           let* (i, r) := p_ident ts in
           let* (t, r2) := p_type n r in Ok (PRowField (Some i) t, r2))
  end
with p_rowfields (n : nat) (ts : list token) {struct n} : pres (list prowfield) :=
  match n with
  | O => Err OutOfFuel
  | S n =>
      let* (f, r) := p_rowfield n ts in
      match eat_sym "," r with
      | Some r1 => let* (fs, r2) := p_rowfields n r1 in Ok (f :: fs, r2)
      | None => Ok ([f], r)
      end
  end.

(** * Visitors (convert.py 492-610), producing raw [DataType] objects *)

(** Python [{param.name: val for val, param in zip(values, FIELDS[name])}]. *)
Fixpoint zip_params (fs : list tparam) (vs : list pval) : list (string * pval) :=
  match fs, vs with
  | f :: fs', v :: vs' => (pname f, v) :: zip_params fs' vs'
  | _, _ => []
  end.

Fixpoint visit_type (t : ptype) : result rawdt :=
  match t with
  | PTRow fs => (* 506-508, 511-515 *)
      let* l := (fix go (fs : list prowfield) : result (list pval) :=
                   match fs with
                   | [] => Ok []
                   | f :: fs' =>
                       let* v := visit_rowfield f in
                       let* vs := go fs' in Ok (PDT v :: vs)
                   end) fs in
      mk_datatype "ROW" [("dtypes", PList l)]
  | PTInterval f to => (* 548-554, 541-545 *)
      mk_datatype "INTERVAL"
        (("from_interval", PStr f)
           :: match to with Some t => [("to_interval", PStr t)] | None => [] end)
  | PTDateTime ts p z => (* 577-590 *)
      let* ps := match p with
                 | Some p => let* v := visit_typeparam p in Ok [("precision", v)]
                 | None => Ok []
                 end in
      mk_datatype (if ts then "TIMESTAMP" else "TIME")
                  (ps ++ [("timezone", PBool z)])%list
  | PTDoublePrecision => mk_datatype "DOUBLE" [] (* 593-596 *)
  | PTLegacyArray _ | PTLegacyMap _ _ => Err NotImplementedError (* 598-608 *)
  | PTArraySuffix t size => (* 563-565 *)
      let* _ := py_assert (match size with None => true | Some _ => false end) in
      let* t := visit_type t in
      mk_datatype "ARRAY" [("dtype", PDT t)]
  | PTGeneric i ps => (* 492-503 *)
      let* vs := (fix go (ps : list ptparam) : result (list pval) :=
                    match ps with
                    | [] => Ok []
                    | p :: ps' =>
                        let* v := visit_typeparam p in
                        let* vs := go ps' in Ok (v :: vs)
                    end) ps in
      let* name := visit_ident i in
      let name := upper name in
      mk_datatype name (zip_params (fields name) vs)
  end
with visit_typeparam (p : ptparam) : result pval := (* 567-575 *)
  match p with
  | PPInt t => Ok (PInt (Z.of_N (N_of_str t)))
  | PPType t => let* t := visit_type t in Ok (PDT t)
  end
with visit_rowfield (f : prowfield) : result rawdt := (* 511-515 *)
  match f with
  | PRowField i t =>
      let* _ := py_assert (match i with None => true | Some _ => false end) in
      visit_type t
  end.

(** Canonical form of a raw object (the model's reading of the parameter
    dict); [None] for objects with [bool] where an [int] is meant. *)
Definition opt_int_param (k : string) (ps : list (string * pval)) : option (option Z) :=
  match assoc k ps with
  | None => Some None
  | Some (PInt z) => Some (Some z)
  | Some _ => None
  end.
Fixpoint canon (t : rawdt) : option dtype :=
  let 'RDT name ps := t in
  match find (fun s => String.eqb name (simple_name s)) all_simple with
  | Some s => Some (TSimple s)
  | None =>
      if String.eqb name "DECIMAL" then
        match assoc "precision" ps, assoc "scale" ps with
        | Some (PInt p), Some (PInt s) => Some (TDecimal p s)
        | _, _ => None
        end
      else if String.eqb name "VARCHAR" then
        option_map TVarchar (opt_int_param "max_chars" ps)
      else if String.eqb name "CHAR" then
        match assoc "max_chars" ps with Some (PInt n) => Some (TChar n) | _ => None end
      else if String.eqb name "TIME" then
        match opt_int_param "precision" ps, assoc "timezone" ps with
        | Some p, Some (PBool z) => Some (TTime p z)
        | _, _ => None
        end
      else if String.eqb name "TIMESTAMP" then
        match opt_int_param "precision" ps, assoc "timezone" ps with
        | Some p, Some (PBool z) => Some (TTimestamp p z)
        | _, _ => None
        end
      else if String.eqb name "INTERVAL" then
        match assoc "from_interval" ps with
        | Some (PStr f) => if String.eqb f "YEAR" then Some (TInterval YearToMonth)
                           else Some (TInterval DayToSecond)
        | _ => None
        end
      else
        (fix find_types (ps0 : list (string * pval)) (seen : list (string * dtype)) {struct ps0} : option dtype :=
           match ps0 with
           | (k, PDT t) :: r =>
               match canon t with
               | Some d => find_types r ((k, d) :: seen)
               | None => None
               end
           | [(_, PList l)] =>
               if String.eqb name "ROW" then
                 option_map TRow
                   ((fix go (l : list pval) : option (list dtype) :=
                       match l with
                       | [] => Some []
                       | PDT t :: l' =>
                           match canon t, go l' with
                           | Some d, Some ds => Some (d :: ds)
                           | _, _ => None
                           end
                       | _ => None
                       end) l)
               else None
           | [] =>
               if String.eqb name "ARRAY" then option_map TArray (assoc "dtype" seen)
               else if String.eqb name "QDIGEST" then option_map TQdigest (assoc "dtype" seen)
               else if String.eqb name "MAP" then
                 match assoc "from_dtype" seen, assoc "to_dtype" seen with
                 | Some k, Some v => Some (TMap k v)
                 | _, _ => None
                 end
               else None
           | _ => None
           end) ps []
  end.

Definition type_fuel (ts : list token) : nat := 8 * length ts + 8.

(** Whole input is one type, then EOF (standaloneType). *)
Definition p_standalone_type (ts : list token) : result ptype :=
  let* (t, r) := p_type (type_fuel ts) ts in
  match r with [] => Ok t | _ => Err SyntaxErr end.

(** convert.py 112-113 [type_from_sql]. *)
Definition type_from_sql (s : string) : result rawdt :=
  let* t := p_standalone_type (lex s) in visit_type t.
