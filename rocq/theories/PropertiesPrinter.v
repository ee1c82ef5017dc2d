(** Property theorems C08 - C12: literal type inference and the layout printers. *)
From Coq Require Import String Ascii List ZArith NArith Bool QArith Arith Lia.
From Verif Require Import PyStr Printer PrinterFacts Types Inference ConversionFacts InferenceFacts.
Import ListNotations.
Open Scope nat_scope.
Open Scope string_scope.

(** C08.  [holds t q]: [q] is a value of [t] (ConversionFacts.v). *)
Theorem C08_integer_type : forall z,
  (- 2 ^ 63 <= z < 2 ^ 63)%Z ->
  exists s bits, infer_type (LInt z) = Ok (TSimple s) /\ holds (TSimple s) (inject_Z z)
    /\ int_bits s = Some bits
    /\ (s = SInteger \/ s = SBigint)
    /\ (- 2 ^ 31 <= z < 2 ^ 31 <-> s = SInteger)%Z.
Proof. exact infer_int_spec. Qed.
Print Assumptions C08_integer_type.
Example C08_case :
  infer_type (LInt 2147483647) = Ok (TSimple SInteger) /\ infer_type (LInt 2147483648) = Ok (TSimple SBigint)
  /\ infer_type (LInt (-2147483648)) = Ok (TSimple SInteger).
Proof. vm_compute; repeat split. Qed.
Theorem C08_beyond_64_bits_refuted :
  exists z, infer_type (LInt z) = Ok (TSimple SBigint) /\ ~ holds (TSimple SBigint) (inject_Z z).
Proof.
  exists (2 ^ 63)%Z. split; [vm_compute; reflexivity|].
  intros (b & z & Hb & Hz & E). injection Hb as <-. unfold Qeq, inject_Z in E. cbn in E, Hz.
  rewrite Z.mul_1_r in E. subst z. apply (Z.lt_irrefl _ (proj2 Hz)).
Qed.
Print Assumptions C08_beyond_64_bits_refuted.

(** C09.  The text has no exponent part iff it has no letter E. *)
Theorem C09_decimal_type : forall d p s,
  has_char "E" (dec_str d) = false -> infer_type (LDec d) = Ok (TDecimal p s) ->
  s = (- dexp d)%Z /\ holds (TDecimal p s) (dec_value d).
Proof. exact infer_decimal_holds. Qed.
Print Assumptions C09_decimal_type.
Example C09_case :
  dec_str (mkDec false 314 (-2)) = "3.14" /\ infer_type (LDec (mkDec false 314 (-2))) = Ok (TDecimal 3 2)
  /\ dec_str (mkDec true 5 (-3)) = "-0.005" /\ infer_type (LDec (mkDec true 5 (-3))) = Ok (TDecimal 5 3).
Proof. vm_compute; repeat split. Qed.
Theorem C09_exponent_refuted :
  exists d t, infer_type (LDec d) = Ok t /\ dec_str d = "1E-7" /\ ~ holds t (dec_value d).
Proof.
  exists (mkDec false 1 (-7)), (TDecimal 4 0). split; [vm_compute; reflexivity|].
  split; [vm_compute; reflexivity|]. intros (n & Hn & E).
  unfold dec_value, Qeq, inject_Z, Qinv, Qmult in E; cbn in E. lia.
Qed.
Print Assumptions C09_exponent_refuted.

(** C10.  [layout d bs l]: the items joined by [d], with a line feed in front of
    the items marked in [bs]. *)
Theorem C10_default_join : forall w sp d l,
  sp < w -> join_printer w (mkOpts DEFAULT sp) d l = Ok (join d l).
Proof.
  intros w sp d l H. unfold join_printer. cbn [ospaces]. apply Nat.ltb_lt in H. rewrite H.
  exact (f_equal Ok (join_core_default w (mkOpts DEFAULT sp) d l eq_refl)).
Qed.
Print Assumptions C10_default_join.
Theorem C10_pretty_breaks : forall w o d l r,
  join_printer w o d l = Ok r ->
  exists bs, length bs = length l /\ (forall b bs', bs = b :: bs' -> b = false) /\ r = layout d bs l.
Proof.
  intros w o d l r H. unfold join_printer in H. destruct (Nat.ltb (ospaces o) w); [|discriminate H].
  injection H as <-. exact (join_core_layout w o d l).
Qed.
Print Assumptions C10_pretty_breaks.
Theorem C10_pretty_width : forall w sp d l r,
  join_printer w (mkOpts PRETTY sp) d l = Ok r ->
  nl_free d = true -> String.length d <= 1 ->
  (forall x, In x l -> nl_free x = true /\ String.length x < w - sp) ->
  forall line, In line (nl_lines r) -> String.length line <= w - sp.
Proof.
  intros w sp d l r H. unfold join_printer in H. destruct (Nat.ltb _ w); [|discriminate H].
  injection H as <-. exact (join_core_width w sp d l).
Qed.
Print Assumptions C10_pretty_width.
Theorem C10_raises : forall w o d l, w <= ospaces o -> join_printer w o d l = Err AssertionError.
Proof. intros w o d l H. unfold join_printer. apply Nat.ltb_ge in H. rewrite H. reflexivity. Qed.
Print Assumptions C10_raises.
Example C10_case :
  join_printer 10 (mkOpts PRETTY 4) "," ["ab"; "cd"; "efgh"; "ij"]
  = Ok ("ab,cd," ++ nls ++ "efgh," ++ nls ++ "ij")
  /\ layout "," [false; false; true; true] ["ab"; "cd"; "efgh"; "ij"] = "ab,cd," ++ nls ++ "efgh," ++ nls ++ "ij".
Proof. vm_compute; repeat split. Qed.
(** With a longer delimiter the width is not kept: only one character per
    delimiter is counted. *)
Theorem C10_width_long_delimiter_refuted :
  exists w sp d l r line,
    join_printer w (mkOpts PRETTY sp) d l = Ok r /\ nl_free d = true
    /\ (forall x, In x l -> nl_free x = true /\ String.length x < w - sp)
    /\ In line (nl_lines r) /\ w - sp < String.length line.
Proof.
  exists 12, 4, " AND ", ["ab"; "cd"; "e"]. do 2 eexists. split; [vm_compute; reflexivity|].
  split; [reflexivity|]. split.
  { intros x [<-|[<-|[<-|[]]]]; (split; [reflexivity | vm_compute; repeat constructor]). }
  split; [left; reflexivity|]. vm_compute; repeat constructor.
Qed.
Print Assumptions C10_width_long_delimiter_refuted.

(** C11. *)
Theorem C11_default_layout : forall sp river m,
  stmt_to_string (mkOpts DEFAULT sp) river m
  = join " " (map (fun kv => match snd kv with "" => fst kv | v => fst kv ++ " " ++ v end) m).
Proof. intros sp river m; exact (stmt_default (mkOpts DEFAULT sp) river m eq_refl). Qed.
Print Assumptions C11_default_layout.
(** Entries accumulate in insertion order; a repeated key raises. *)
Theorem C11_entries : forall new m,
  match add_entries new m with
  | Ok r => r = (m ++ new)%list /\ (NoDup (map fst m) -> NoDup (map fst r))
  | Err e => e = AssertionError /\ ~ NoDup (map fst (m ++ new))
  end.
Proof. exact add_entries_ok. Qed.
Print Assumptions C11_entries.
Theorem C11_pretty_river : forall sp m,
  exists blocks,
    stmt_to_string (mkOpts PRETTY sp) true m = join nls blocks /\
    Forall2 (fun kv b => exists n rest,
               b = spaces n ++ fst kv ++ rest
               /\ n + String.length (fst kv) = max_key m
               /\ rest = match pad (snd kv) (max_key m + 1) with "" => "" | p => " " ++ p end) m blocks.
Proof. intros sp m; exact (stmt_river (mkOpts PRETTY sp) m eq_refl). Qed.
Print Assumptions C11_pretty_river.
(** [words] is Python [str.split()]: both modes show the same words. *)
Theorem C11_same_words : forall o o' river river' m,
  words (stmt_to_string o river m) = words (stmt_to_string o' river' m).
Proof. intros; rewrite (words_stmt o river m), (words_stmt o' river' m); reflexivity. Qed.
Print Assumptions C11_same_words.
Example C11_case :
  stmt_to_string (mkOpts PRETTY 4) true [("SELECT", "a,b"); ("FROM", "t" ++ nls ++ "x"); ("LIMIT", "")]
  = "SELECT a,b" ++ nls ++ "  FROM t" ++ nls ++ "       x" ++ nls ++ " LIMIT".
Proof. vm_compute; reflexivity. Qed.
Example C11_duplicate : add_entry "FROM" "t" [("FROM", "s")] = Err AssertionError.
Proof. vm_compute; reflexivity. Qed.

(** C12.  [has_lines s ls]: the lines of [s] (PrinterFacts.v). *)
Theorem C12_pad_lines : forall s n,
  exists ls, has_lines s ls /\ pad s n = join (nls ++ spaces n) ls.
Proof.
  intros s n. destruct (has_lines_total s) as [ls H].
  exact (ex_intro _ ls (conj H (pad_lines s ls n H))).
Qed.
Print Assumptions C12_pad_lines.
Theorem C12_lines_unique : forall s ls ls', has_lines s ls -> has_lines s ls' -> ls = ls'.
Proof.
  intros s ls ls' H H'. rewrite <- (has_lines_splitlines s ls H). exact (has_lines_splitlines s ls' H').
Qed.
Print Assumptions C12_lines_unique.
Theorem C12_pad_single_line : forall s n, str_exists is_break s = false -> pad s n = s.
Proof. exact pad_single. Qed.
Print Assumptions C12_pad_single_line.
Example C12_case : pad ("a" ++ nls ++ "" ++ nls ++ "b" ++ nls) 2 = "a" ++ nls ++ "  " ++ nls ++ "  b".
Proof. vm_compute; reflexivity. Qed.
