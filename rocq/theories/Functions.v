(** The function classes of treeno/functions: their SQL names, module, number
    of positional arguments and result types. *)
From Coq Require Import String List ZArith Bool.
From Verif Require Import PyStr Types Conversions.
Import ListNotations.
Open Scope string_scope.

(** One constructor per class with a [FN_NAME] (functions/*.py). *)
Inductive fn :=
(* aggregate.py 113-560 *)
| FSum | FArbitrary | FArrayAgg | FAvg | FBoolAnd | FBoolOr | FChecksum | FCount
| FCountIf | FEvery | FGeometricMean | FListAgg | FMax | FMaxBy | FMin | FMinBy
| FBitwiseAndAgg | FBitwiseOrAgg | FHistogram | FMapAgg | FMapUnion | FMultiMapAgg
| FApproxDistinct | FApproxMostFrequent | FApproxPercentile | FApproxSet | FMerge
| FNumericHistogram | FQDigestAgg | FTDigestAgg | FCorr | FCovarPop | FCovarSamp
| FKurtosis | FRegrIntercept | FRegrSlope | FSkewness | FStdDev | FStdDevPop
| FStdDevSamp | FVariance | FVarPop | FVarSamp
(* common.py 74-106 *)
| FConcatenate
(* conditional.py 14-101 *)
| FIf | FCoalesce | FNullIf | FTry
(* datetime.py 27-330 *)
| FCurrentDate | FCurrentTime | FCurrentTimestamp | FLocalTime | FLocalTimestamp
| FDate | FLastDayOfMonth | FFromISO8601Timestamp | FFromISO8601TimestampNanos
| FFromISO8601Date | FAtTimezone | FWithTimezone | FFromUnixtime | FFromUnixtimeNanos
| FNow | FToISO8601 | FToMilliseconds | FToUnixtime | FDateTrunc | FDateAdd
| FDateDiff | FParseDuration | FHumanReadableSeconds
(* math.py 12-25 *)
| FPower
(* session.py 9-62 *)
| FCurrentUser | FCurrentCatalog | FCurrentSchema | FCurrentPath
(* string.py 25-330 *)
| FChr | FCodePoint | FHammingDistance | FLength | FLevenshteinDistance | FLower
| FLPad | FLTrim | FLuhnCheck | FReplace | FReverse | FRPad | FRTrim | FSoundex
| FNormalize | FToUTF8 | FFromUTF8.

Definition all_fns : list fn :=
  [FSum; FArbitrary; FArrayAgg; FAvg; FBoolAnd; FBoolOr; FChecksum; FCount;
   FCountIf; FEvery; FGeometricMean; FListAgg; FMax; FMaxBy; FMin; FMinBy;
   FBitwiseAndAgg; FBitwiseOrAgg; FHistogram; FMapAgg; FMapUnion; FMultiMapAgg;
   FApproxDistinct; FApproxMostFrequent; FApproxPercentile; FApproxSet; FMerge;
   FNumericHistogram; FQDigestAgg; FTDigestAgg; FCorr; FCovarPop; FCovarSamp;
   FKurtosis; FRegrIntercept; FRegrSlope; FSkewness; FStdDev; FStdDevPop;
   FStdDevSamp; FVariance; FVarPop; FVarSamp; FConcatenate; FIf; FCoalesce; FNullIf; FTry;
   FCurrentDate; FCurrentTime; FCurrentTimestamp; FLocalTime; FLocalTimestamp;
   FDate; FLastDayOfMonth; FFromISO8601Timestamp; FFromISO8601TimestampNanos;
   FFromISO8601Date; FAtTimezone; FWithTimezone; FFromUnixtime; FFromUnixtimeNanos;
   FNow; FToISO8601; FToMilliseconds; FToUnixtime; FDateTrunc; FDateAdd;
   FDateDiff; FParseDuration; FHumanReadableSeconds; FPower; FCurrentUser;
   FCurrentCatalog; FCurrentSchema; FCurrentPath; FChr; FCodePoint; FHammingDistance;
   FLength; FLevenshteinDistance; FLower; FLPad; FLTrim; FLuhnCheck; FReplace;
   FReverse; FRPad; FRTrim; FSoundex; FNormalize; FToUTF8; FFromUTF8].

(** The class attribute [FN_NAME]; equal to [FUNCTIONS_TO_NAMES] of the class
    (functions/base.py 34-37). *)
Definition fn_name (f : fn) : string :=
  match f with
  | FSum => "SUM" | FArbitrary => "ARBITRARY" | FArrayAgg => "ARRAY_AGG" | FAvg => "AVG"
  | FBoolAnd => "BOOL_AND" | FBoolOr => "BOOL_OR" | FChecksum => "CHECKSUM"
  | FCount => "COUNT" | FCountIf => "COUNT_IF" | FEvery => "EVERY"
  | FGeometricMean => "GEOMETRIC_MEAN" | FListAgg => "LISTAGG" | FMax => "MAX"
  | FMaxBy => "MAX_BY" | FMin => "MIN" | FMinBy => "MIN_BY"
  | FBitwiseAndAgg => "BITWISE_AND_AGG" | FBitwiseOrAgg => "BITWISE_OR_AGG"
  | FHistogram => "HISTOGRAM" | FMapAgg => "MAP_AGG" | FMapUnion => "MAP_UNION"
  | FMultiMapAgg => "MULTIMAP_AGG" | FApproxDistinct => "APPROX_DISTINCT"
  | FApproxMostFrequent => "APPROX_MOST_FREQUENT"
  | FApproxPercentile => "APPROX_PERCENTILE" | FApproxSet => "APPROX_SET"
  | FMerge => "MERGE" | FNumericHistogram => "NUMERIC_HISTOGRAM"
  | FQDigestAgg => "QDIGEST_AGG" | FTDigestAgg => "TDIGEST_AGG" | FCorr => "CORR"
  | FCovarPop => "COVAR_POP" | FCovarSamp => "COVAR_SAMP" | FKurtosis => "KURTOSIS"
  | FRegrIntercept => "REGR_INTERCEPT" | FRegrSlope => "REGR_SLOPE"
  | FSkewness => "SKEWNESS" | FStdDev => "STDDEV" | FStdDevPop => "STDDEV_POP"
  | FStdDevSamp => "STDDEV_SAMP" | FVariance => "VARIANCE" | FVarPop => "VAR_POP"
  | FVarSamp => "VAR_SAMP" | FConcatenate => "CONCAT" | FIf => "IF"
  | FCoalesce => "COALESCE" | FNullIf => "NULLIF" | FTry => "TRY"
  | FCurrentDate => "CURRENT_DATE" | FCurrentTime => "CURRENT_TIME"
  | FCurrentTimestamp => "CURRENT_TIMESTAMP" | FLocalTime => "LOCALTIME"
  | FLocalTimestamp => "LOCALTIMESTAMP" | FDate => "DATE"
  | FLastDayOfMonth => "LAST_DAY_OF_MONTH"
  | FFromISO8601Timestamp => "FROM_ISO8601_TIMESTAMP"
  | FFromISO8601TimestampNanos => "FROM_ISO8601_TIMESTAMP_NANOS"
  | FFromISO8601Date => "FROM_ISO8601_DATE" | FAtTimezone => "AT_TIMEZONE"
  | FWithTimezone => "WITH_TIMEZONE" | FFromUnixtime => "FROM_UNIXTIME"
  | FFromUnixtimeNanos => "FROM_UNIXTIME_NANOS" | FNow => "NOW"
  | FToISO8601 => "TO_ISO8601" | FToMilliseconds => "TO_MILLISECONDS"
  | FToUnixtime => "TO_UNIXTIME" | FDateTrunc => "DATE_TRUNC" | FDateAdd => "DATE_ADD"
  | FDateDiff => "DATE_DIFF" | FParseDuration => "PARSE_DURATION"
  | FHumanReadableSeconds => "HUMAN_READABLE_SECONDS" | FPower => "POWER"
  | FCurrentUser => "CURRENT_USER" | FCurrentCatalog => "CURRENT_CATALOG"
  | FCurrentSchema => "CURRENT_SCHEMA" | FCurrentPath => "CURRENT_PATH" | FChr => "CHR"
  | FCodePoint => "CODEPOINT" | FHammingDistance => "HAMMING_DISTANCE"
  | FLength => "LENGTH" | FLevenshteinDistance => "LEVENSHTEIN_DISTANCE"
  | FLower => "LOWER" | FLPad => "LPAD" | FLTrim => "LTRIM" | FLuhnCheck => "LUHN_CHECK"
  | FReplace => "REPLACE" | FReverse => "REVERSE" | FRPad => "RPAD" | FRTrim => "RTRIM"
  | FSoundex => "SOUNDEX" | FNormalize => "NORMALIZE" | FToUTF8 => "TO_UTF8"
  | FFromUTF8 => "FROM_UTF8"
  end.

(** The module that defines the class. *)
Inductive fmodule := MAggregate | MCommon | MConditional | MDatetime | MMath | MSession | MString.
Definition fn_module (f : fn) : fmodule :=
  match f with
  | FConcatenate => MCommon
  | FIf | FCoalesce | FNullIf | FTry => MConditional
  | FCurrentDate | FCurrentTime | FCurrentTimestamp | FLocalTime | FLocalTimestamp
  | FDate | FLastDayOfMonth | FFromISO8601Timestamp | FFromISO8601TimestampNanos
  | FFromISO8601Date | FAtTimezone | FWithTimezone | FFromUnixtime | FFromUnixtimeNanos
  | FNow | FToISO8601 | FToMilliseconds | FToUnixtime | FDateTrunc | FDateAdd
  | FDateDiff | FParseDuration | FHumanReadableSeconds => MDatetime
  | FPower => MMath
  | FCurrentUser | FCurrentCatalog | FCurrentSchema | FCurrentPath => MSession
  | FChr | FCodePoint | FHammingDistance | FLength | FLevenshteinDistance | FLower
  | FLPad | FLTrim | FLuhnCheck | FReplace | FReverse | FRPad | FRTrim | FSoundex
  | FNormalize | FToUTF8 | FFromUTF8 => MString
  | _ => MAggregate
  end.

(** The modules imported so far.  functions/__init__.py imports nothing, and
    builder/convert.py 44-60 imports aggregate, base, common, session and
    string; the other three are registered only if the program imports them. *)
Record env := mkEnv { e_conditional : bool; e_datetime : bool; e_math : bool }.
Definition loaded (en : env) (m : fmodule) : bool :=
  match m with
  | MConditional => e_conditional en
  | MDatetime => e_datetime en
  | MMath => e_math en
  | _ => true
  end.
Definition bare_env := mkEnv false false false.
Definition full_env := mkEnv true true true.

(** functions/base.py 13, 22-37: [NAMES_TO_FUNCTIONS]. *)
Definition names_to_functions (en : env) (name : string) : option fn :=
  find (fun f => (String.eqb (fn_name f) name && loaded en (fn_module f))%bool) all_fns.

(** Subclass of [AggregateFunction] (aggregate.py 31). *)
Definition is_aggregate (f : fn) : bool :=
  match fn_module f with MAggregate => true | _ => false end.

(** Fewest and most positional arguments of the constructor ([None]:
    any number).  [FListAgg], [FNormalize] and the parametrized date-time
    functions have their own AST nodes. *)
Definition fn_arity (f : fn) : nat * option nat :=
  match f with
  | FMax | FMin | FApproxDistinct | FTDigestAgg | FFromUTF8 => (1, Some 2)
  | FMaxBy | FMinBy | FNumericHistogram | FIf | FReplace | FApproxPercentile => (2, Some 3)
  | FMapAgg | FMultiMapAgg | FCorr | FCovarPop | FCovarSamp | FKurtosis | FRegrIntercept
  | FRegrSlope | FNullIf | FAtTimezone | FWithTimezone | FDateTrunc | FPower
  | FHammingDistance | FLevenshteinDistance => (2, Some 2)
  | FApproxMostFrequent | FDateAdd | FDateDiff | FLPad | FRPad => (3, Some 3)
  | FQDigestAgg | FFromUnixtime => (1, Some 3)
  | FConcatenate | FCoalesce => (0, None)
  | FCurrentDate | FNow | FCurrentUser | FCurrentCatalog | FCurrentSchema | FCurrentPath
  | FCurrentTime | FCurrentTimestamp | FLocalTime | FLocalTimestamp => (0, Some 0)
  | _ => (1, Some 1)
  end%nat.
Definition arity_ok (f : fn) (n : nat) : bool :=
  let '(lo, hi) := fn_arity f in
  (Nat.leb lo n && match hi with None => true | Some h => Nat.leb n h end)%bool.

(** Printed as a bare keyword (datetime.py 27-37, session.py). *)
Definition fn_bare (f : fn) : bool :=
  match f with
  | FCurrentDate | FCurrentUser | FCurrentCatalog | FCurrentSchema | FCurrentPath => true
  | _ => false
  end.
(** Classes with their own AST node. *)
Definition fn_special (f : fn) : bool :=
  match f with
  | FListAgg | FNormalize | FCurrentTime | FCurrentTimestamp | FLocalTime | FLocalTimestamp => true
  | _ => false
  end.

Definition varchar_unbounded : dtype := TVarchar None.
Definition varbinary : dtype := TSimple SVarbinary.
Definition date : dtype := TSimple SDate.

(** datetime.py 121-190: [timestamp(precision=..., timezone=True)] of a
    timestamp argument, otherwise unknown. *)
Definition with_zone (t : dtype) : result dtype :=
  match t with
  | TTimestamp (Some p) _ => timestamp (Some p) true
  | TTimestamp None _ => Err KeyError
  | _ => Ok unknown
  end.

(** The [data_type] that [__attrs_post_init__] computes from the types of the
    positional arguments. *)
Definition fn_type (f : fn) (ts : list dtype) : result dtype :=
  let a := nth 0 ts unknown in
  let b := nth 1 ts unknown in
  let c := nth 2 ts unknown in
  match f with
  | FSum | FArbitrary | FMapUnion | FMax | FMaxBy | FMin | FMinBy | FNullIf | FTry => Ok a
  | FArrayAgg => Ok (TArray a)
  | FAvg | FGeometricMean | FCorr | FCovarPop | FCovarSamp | FKurtosis | FRegrIntercept
  | FRegrSlope | FPower | FToUnixtime => Ok double
  | FBoolAnd | FBoolOr | FEvery | FLuhnCheck => Ok boolean
  | FChecksum | FToUTF8 => Ok varbinary
  | FCount | FCountIf | FBitwiseAndAgg | FBitwiseOrAgg | FApproxDistinct
  | FHammingDistance | FLength | FLevenshteinDistance | FToMilliseconds | FDateDiff => Ok bigint
  | FHistogram => Ok (TMap a bigint)
  | FMapAgg => Ok (TMap a b)
  | FMultiMapAgg => Ok (TMap a (TArray b))
  | FApproxMostFrequent => Ok (TMap b bigint)
  | FApproxPercentile =>
      Ok (match b with
          | TArray _ => TArray a
          | _ => if is_unknown b then unknown else a
          end)
  | FApproxSet => Ok (TSimple SHll)
  | FMerge => Ok (match a with TSimple STdigest | TQdigest _ => a | _ => TSimple SHll end)
  | FNumericHistogram => Ok (TMap double double)
  | FQDigestAgg => Ok (TQdigest a)
  | FTDigestAgg => Ok (TSimple STdigest)
  | FSkewness | FStdDev | FStdDevPop | FStdDevSamp | FVariance | FVarPop | FVarSamp => Ok unknown
  | FConcatenate => concat_type ts
  | FIf => if_type b (match ts with [_; _; t] => Some t | _ => None end)
  | FCoalesce => coalesce_type ts
  | FCurrentDate | FDate | FLastDayOfMonth | FFromISO8601Date => Ok date
  | FFromISO8601Timestamp | FNow => Ok (TTimestamp (Some 3%Z) true)
  | FFromISO8601TimestampNanos | FFromUnixtimeNanos => Ok (TTimestamp (Some 9%Z) true)
  | FAtTimezone | FWithTimezone | FFromUnixtime => with_zone a
  | FToISO8601 | FHumanReadableSeconds => Ok varchar_unbounded
  | FDateTrunc => Ok b
  | FDateAdd => Ok c
  | FParseDuration => Ok (TInterval DayToSecond)
  | FCurrentUser | FCurrentCatalog | FCurrentSchema | FCurrentPath => Ok varchar_unbounded
  | FChr | FLower | FLPad | FLTrim | FReplace | FReverse | FRPad | FRTrim | FSoundex
  | FFromUTF8 => Ok varchar_unbounded
  | FCodePoint => Ok integer
  (* nodes of their own *)
  | FListAgg | FNormalize => Ok varchar_unbounded
  | FCurrentTime | FLocalTime => time (Some 3%Z) false
  | FCurrentTimestamp | FLocalTimestamp => timestamp (Some 3%Z) false
  end.
