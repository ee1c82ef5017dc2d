(** Property theorems C01 - C04: data types, their text and the constructor. *)
From Coq Require Import String Ascii List ZArith Bool.
From Verif Require Import PyStr Types TypeFacts TypeParser TypeRoundTrip TypeObjects.
Import ListNotations.
Open Scope string_scope.

(** C01.  [mk_datatype name ps] is [DataType(name, ps)]; [valid_args] and
    [completed] (TypeFacts.v) say in terms of the table [has_param] what the
    arguments must be and which parameters the object has. *)
Theorem C01_constructor : forall name ps,
  match mk_datatype name ps with
  | Ok r =>
      valid_args (upper name) ps /\ rname r = upper name
      /\ completed (upper name) ps (fun k => assoc k (rparams r))
      /\ (forall k v, In (k, v) (rparams r) -> exists kd pr, has_param (upper name) k kd pr)
  | Err e => e = AssertionError /\ ~ valid_args (upper name) ps
  end.
Proof. exact mk_datatype_spec. Qed.
Print Assumptions C01_constructor.

(** C01, order independence: two dicts with the same entries give the same object. *)
Theorem C01_order_independent : forall name ps1 ps2,
  (forall k, assoc k ps1 = assoc k ps2) ->
  match mk_datatype name ps1, mk_datatype name ps2 with
  | Ok r1, Ok r2 => rname r1 = rname r2 /\ forall k, assoc k (rparams r1) = assoc k (rparams r2)
  | Err e1, Err e2 => e1 = e2
  | _, _ => False
  end.
Proof. exact mk_datatype_order. Qed.
Print Assumptions C01_order_independent.

Example C01_accepts :
  mk_datatype "decimal" [("scale", PInt 2)]
  = Ok (RDT "DECIMAL" [("scale", PInt 2); ("precision", PInt 38)]).
Proof. vm_compute; reflexivity. Qed.
Example C01_rejects_range : mk_datatype "DECIMAL" [("precision", PInt 39)] = Err AssertionError.
Proof. vm_compute; reflexivity. Qed.
Example C01_rejects_unknown_parameter :
  mk_datatype "INTEGER" [("precision", PInt 3)] = Err AssertionError.
Proof. vm_compute; reflexivity. Qed.
Example C01_rejects_missing : mk_datatype "MAP" [("from_dtype", PDT (RDT "DATE" []))] = Err AssertionError.
Proof. vm_compute; reflexivity. Qed.
Example C01_accepts_nested :
  mk_datatype "row" [("dtypes", PList [PDT (RDT "DATE" []); PDT (RDT "ARRAY" [("dtype", PDT (RDT "JSON" []))])])]
  = Ok (RDT "ROW" [("dtypes", PList [PDT (RDT "DATE" []); PDT (RDT "ARRAY" [("dtype", PDT (RDT "JSON" []))])])]).
Proof. vm_compute; reflexivity. Qed.

(** C02.  [built]: reachable by the constructor from non-negative integers
    (a [bool] only as [timezone], no empty ROW); [same]: Python [==]. *)
Theorem C02_type_round_trip : forall r,
  built r ->
  exists s r', raw_sql r = Ok s /\ type_from_sql s = Ok r' /\ same r' r.
Proof. exact object_round_trip. Qed.
Print Assumptions C02_type_round_trip.

(** C02 on canonical trees, with the exact result. *)
Theorem C02_canonical_round_trip : forall t,
  wf_type t = true -> type_from_sql (type_sql t) = Ok (raw_of t).
Proof. exact type_round_trip. Qed.
Print Assumptions C02_canonical_round_trip.

(** Every canonical well-formed type is a built object, so C02 is not vacuous. *)
Theorem C02_all_canonical_built : forall t, wf_type t = true -> built (raw_of t).
Proof. exact built_raw_of. Qed.
Print Assumptions C02_all_canonical_built.

Example C02_case :
  let t := TMap (TRow [TDecimal 10 2; TTimestamp (Some 3%Z) true; TVarchar None])
                (TArray (TArray (TInterval DayToSecond))) in
  wf_type t = true
  /\ type_sql t = "MAP(ROW(DECIMAL(10,2),TIMESTAMP(3) WITH TIME ZONE,VARCHAR),ARRAY(ARRAY(INTERVAL DAY TO SECOND)))".
Proof. vm_compute; split; reflexivity. Qed.

(** The exclusions of [built] are needed: the constructor accepts each of these
    objects, but its text is rejected by the parser or reads as another object. *)
Theorem C02_empty_row_refuted :
  exists r s, mk_datatype "ROW" [("dtypes", PList [])] = Ok r
    /\ raw_sql r = Ok s /\ exists e, type_from_sql s = Err e.
Proof. eexists; eexists; repeat split; try (vm_compute; reflexivity). eexists; vm_compute; reflexivity. Qed.
Print Assumptions C02_empty_row_refuted.
Theorem C02_negative_scale_refuted :
  exists r s, mk_datatype "DECIMAL" [("precision", PInt 3); ("scale", PInt (-1))] = Ok r
    /\ raw_sql r = Ok s /\ exists e, type_from_sql s = Err e.
Proof. eexists; eexists; repeat split; try (vm_compute; reflexivity). eexists; vm_compute; reflexivity. Qed.
Print Assumptions C02_negative_scale_refuted.
Theorem C02_bool_length_refuted :
  exists r s, mk_datatype "VARCHAR" [("max_chars", PBool true)] = Ok r
    /\ raw_sql r = Ok s /\ exists e, type_from_sql s = Err e.
Proof. eexists; eexists; repeat split; try (vm_compute; reflexivity). eexists; vm_compute; reflexivity. Qed.
Print Assumptions C02_bool_length_refuted.

(** C03. *)
Theorem C03_text_unambiguous : forall a b,
  built a -> built b -> raw_sql a = raw_sql b -> same a b.
Proof. exact object_text_inj. Qed.
Print Assumptions C03_text_unambiguous.

Example C03_case : built (raw_of (TArray (TDecimal 38 0))) /\ built (raw_of (TArray (TChar 38))).
Proof. split; apply built_raw_of; reflexivity. Qed.

(** C04. *)
Theorem C04_lower_case : forall t,
  wf_type t = true -> interval_free t = true ->
  type_from_sql (lower (type_sql t)) = Ok (raw_of t)
  /\ type_from_sql (type_sql t) = Ok (raw_of t).
Proof. intros t H Hi; exact (conj (type_round_trip_lower t H Hi) (type_round_trip t H)). Qed.
Print Assumptions C04_lower_case.

Example C04_case :
  let t := TRow [TTimestamp None true; TQdigest (TSimple SDouble)] in
  wf_type t = true /\ interval_free t = true
  /\ lower (type_sql t) = "row(timestamp with time zone,qdigest(double))".
Proof. vm_compute; repeat split. Qed.

(** For INTERVAL the lower-cased text is rejected. *)
Theorem C04_interval_refuted :
  exists t e, wf_type t = true /\ type_from_sql (type_sql t) = Ok (raw_of t)
    /\ type_from_sql (lower (type_sql t)) = Err e.
Proof. exists (TInterval YearToMonth); eexists; repeat split; vm_compute; reflexivity. Qed.
Print Assumptions C04_interval_refuted.
