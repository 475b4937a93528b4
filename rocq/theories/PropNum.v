(** Property theorems C01-C08, C58, C59: the coordinate codec and the unit functions. *)
From Verif Require Import PyBase QcLib NumModel NumSpec NumProofs FloatCodec.
Open Scope Qc_scope.

(** C01: write then parse is the identity on grid values. *)
Theorem C01_coordinate_round_trip :
  forall i d zs k, usable_format i d -> (Z.abs k < 10 ^ Z.of_nat (i + d))%Z ->
  exists s, write_gerber_value (grid k d) (i, d) zs = Ok s /\
            parse_gerber_value s (i, d) zs = Ok (grid k d).
Proof. exact C01_lemma. Qed.
Print Assumptions C01_coordinate_round_trip.

Example C01_ex : usable_format 2 5 /\ (Z.abs (-123450) < 10 ^ Z.of_nat (2 + 5))%Z /\
  write_gerber_value (grid (-123450) 5) (2, 5)%nat Trailing = Ok (T "-012345") /\
  write_gerber_value (grid (-123450) 5) (2, 5)%nat Leading = Ok (T "-123450") /\
  rmap this (parse_gerber_value (T "-012345") (2, 5)%nat Trailing) = Ok (-2469 # 2000)%Q.
Proof. unfold usable_format. repeat split; try lia; vm_compute; reflexivity. Qed.

(** C01 in floating point: the same for doubles, [rnd53] being rounding to 53 bits. The double
    nearest to a grid value is written as that grid value and read back as the same double. *)
Theorem C01_coordinate_round_trip_double :
  forall i d zs k, usable_format i d -> (Z.abs k < 10 ^ Z.of_nat (i + d))%Z ->
  exists s, write_gerber_value (rnd53 (grid k d)) (i, d) zs = Ok s /\
            write_gerber_value (grid k d) (i, d) zs = Ok s /\
            parse_gerber_value_fl rnd53 s (i, d) zs = Ok (rnd53 (grid k d)).
Proof. exact (codec_fl rnd53 rnd53_double). Qed.
Print Assumptions C01_coordinate_round_trip_double.

Example C01_double_ex : this (rnd53 (grid 1 1)) = (3602879701896397 # 36028797018963968)%Q /\
  write_gerber_value (rnd53 (grid 1 1)) (2, 1)%nat Leading = Ok (T "1").
Proof. split; vm_compute; reflexivity. Qed.

(** C01 for any odd rounding with relative error at most 2^-53. *)
Theorem C01_coordinate_round_trip_any_rounding :
  forall rnd, double_rounding rnd ->
  forall i d zs k, usable_format i d -> (Z.abs k < 10 ^ Z.of_nat (i + d))%Z ->
  exists s, write_gerber_value (rnd (grid k d)) (i, d) zs = Ok s /\
            write_gerber_value (grid k d) (i, d) zs = Ok s /\
            parse_gerber_value_fl rnd s (i, d) zs = Ok (rnd (grid k d)).
Proof. exact codec_fl. Qed.
Print Assumptions C01_coordinate_round_trip_any_rounding.

Example C01_any_rounding_ex : double_rounding rnd53.
Proof. exact rnd53_double. Qed.

(** C02: half a unit in the last place. *)
Theorem C02_half_ulp :
  forall i d zs v, usable_format i d -> fits i d v ->
  exists s w, write_gerber_value v (i, d) zs = Ok s /\
              parse_gerber_value s (i, d) zs = Ok w /\
              qabs (v - w) <= half_ulp d.
Proof. exact C02_lemma. Qed.
Print Assumptions C02_half_ulp.

Example C02_ex : fits 2 5 (Q2Qc (-100 # 3)) /\
  write_gerber_value (Q2Qc (-100 # 3)) (2, 5)%nat Trailing = Ok (T "-3333333").
Proof. split; vm_compute; reflexivity. Qed.

(** C03: shape of written coordinates. *)
Theorem C03_written_shape :
  forall i d zs v, usable_format i d -> fits i d v ->
  exists s, write_gerber_value v (i, d) zs = Ok s /\
  ((qabs v <= half_ulp d /\ s = T "0") \/
   (half_ulp d < qabs v /\
    exists ds, digits_shape i d zs ds /\ s = (if Qclt_le_dec v 0 then T "-" else []) ++ ds)).
Proof. exact C03_lemma. Qed.
Print Assumptions C03_written_shape.

Example C03_ex : fits 2 3 (Q2Qc (-1 # 20)) /\ half_ulp 3 < qabs (Q2Qc (-1 # 20)) /\
  write_gerber_value (Q2Qc (-1 # 20)) (2, 3)%nat Trailing = Ok (T "-0005") /\
  write_gerber_value (Q2Qc (-1 # 20)) (2, 3)%nat Leading = Ok (T "-50") /\
  write_gerber_value (Q2Qc (-1 # 20)) (2, 3)%nat NoSupp = Ok (T "-00050").
Proof. repeat split; vm_compute; reflexivity. Qed.

(** C04: order preservation and injectivity on the grid. *)
Theorem C04_order_preserved :
  forall i d zs a b, usable_format i d -> fits i d a -> fits i d b -> a <= b ->
  exists sa sb a' b',
    write_gerber_value a (i, d) zs = Ok sa /\ write_gerber_value b (i, d) zs = Ok sb /\
    parse_gerber_value sa (i, d) zs = Ok a' /\ parse_gerber_value sb (i, d) zs = Ok b' /\
    a' <= b'.
Proof. exact C04_lemma. Qed.
Print Assumptions C04_order_preserved.

Theorem C04_no_merging :
  forall i d zs k l s, usable_format i d ->
  (Z.abs k < 10 ^ Z.of_nat (i + d))%Z -> (Z.abs l < 10 ^ Z.of_nat (i + d))%Z ->
  write_gerber_value (grid k d) (i, d) zs = Ok s ->
  write_gerber_value (grid l d) (i, d) zs = Ok s -> k = l.
Proof. exact C04_inj_lemma. Qed.
Print Assumptions C04_no_merging.

Example C04_ex : fits 2 3 (Q2Qc (-1 # 3)) /\ fits 2 3 (Q2Qc (1 # 7)) /\
  Q2Qc (-1 # 3) <= Q2Qc (1 # 7) /\
  write_gerber_value (grid 1500 3) (2, 3)%nat Trailing = Ok (T "015").
Proof. repeat split; vm_compute; first [reflexivity | discriminate]. Qed.

(** C05: what a digit string means. *)
Theorem C05_digit_string_meaning :
  forall i d s np nm, (i <= 6)%nat -> (d <= 7)%nat -> (1 <= i + d)%nat ->
  digit_string s -> (List.length s <= i + d)%nat ->
  let signs := repeat "+"%char np ++ repeat "-"%char nm in
  let negate (v : Qc) := match nm with O => v | _ => - v end in
  parse_gerber_value (signs ++ s) (i, d) Leading = Ok (negate (grid (int_of s) d)) /\
  parse_gerber_value (signs ++ s) (i, d) Trailing =
    Ok (negate (grid (int_of s * 10 ^ (Z.of_nat (i + d) - Z.of_nat (List.length s))) d)).
Proof. exact C05_lemma. Qed.
Print Assumptions C05_digit_string_meaning.

Theorem C05_explicit_zeros :
  forall i d s k, (i <= 6)%nat -> (d <= 7)%nat -> (1 <= i + d)%nat ->
  digit_string s -> (List.length s + k <= i + d)%nat ->
  parse_gerber_value (repeat "0"%char k ++ s) (i, d) Leading = parse_gerber_value s (i, d) Leading /\
  parse_gerber_value (s ++ repeat "0"%char k) (i, d) Trailing = parse_gerber_value s (i, d) Trailing.
Proof. exact C05_zeros_lemma. Qed.
Print Assumptions C05_explicit_zeros.

Theorem C05_none_mode :
  forall i d s nm, (i <= 6)%nat -> (d <= 7)%nat -> s <> [] ->
  digit_string s -> (i <= List.length s)%nat ->
  parse_gerber_value (repeat "-"%char nm ++ s) (i, d) NoSupp =
    Ok ((match nm with O => fun v => v | _ => Qcopp end) (grid (int_of s) (List.length s - i))).
Proof. exact C05_none_lemma. Qed.
Print Assumptions C05_none_mode.

Example C05_ex : digit_string (T "0123") /\ int_of (T "0123") = 123%Z /\
  rmap this (parse_gerber_value (T "+-0123") (2, 5)%nat Leading) = Ok (-123 # 100000)%Q /\
  rmap this (parse_gerber_value (T "+-0123") (2, 5)%nat Trailing) = Ok (-123 # 100)%Q.
Proof. split; [repeat constructor; vm_compute; tauto|]. repeat split; vm_compute; reflexivity. Qed.

(** C06: an explicit decimal point overrides format and mode. *)
Theorem C06_explicit_decimal :
  forall f zs (sg : option bool) a b,
  digit_string a -> digit_string b -> a ++ b <> [] ->
  parse_gerber_value ((match sg with None => [] | Some true => T "-" | Some false => T "+" end)
                      ++ a ++ T "." ++ b) f zs
  = Ok ((match sg with Some true => Qcopp | _ => fun v => v end)
          (grid (int_of (a ++ b)) (List.length b))).
Proof. exact C06_lemma. Qed.
Print Assumptions C06_explicit_decimal.

Example C06_ex : digit_string (T "12") /\ digit_string (T "5") /\
  rmap this (parse_gerber_value (T "-12.5") (9, 9)%nat Leading) = Ok (-25 # 2)%Q.
Proof. repeat split; try (repeat constructor; vm_compute; tauto). Qed.

(** C07: exactly the unsupported formats are rejected, by reader and writer alike. *)
Theorem C07_write_rejects :
  forall v i d zs,
  (i > 6 \/ d > 7 \/ i + d > 13)%nat <-> write_gerber_value v (i, d) zs = Err ValueError.
Proof. exact C07_write_lemma. Qed.
Print Assumptions C07_write_rejects.

Theorem C07_parse_rejects :
  forall s i d zs, digit_string s -> s <> [] ->
  (i > 6 \/ d > 7 \/ i + d > 13)%nat <-> parse_gerber_value s (i, d) zs = Err ValueError.
Proof. exact C07_parse_lemma. Qed.
Print Assumptions C07_parse_rejects.

Example C07_ex : write_gerber_value (zq 1) (7, 2)%nat Leading = Err ValueError /\
  parse_gerber_value (T "12") (7, 2)%nat Leading = Err ValueError /\
  is_ok (parse_gerber_value (T "12") (6, 7)%nat Leading) = true.
Proof. repeat split; vm_compute; reflexivity. Qed.

(** C08: unit functions. *)
Theorem C08_inverse : forall v, metric (inch v) = v /\ inch (metric v) = v.
Proof. exact (fun v => conj (metric_inch v) (inch_metric v)). Qed.
Print Assumptions C08_inverse.

Theorem C08_linear :
  forall a b, metric (a + b) = metric a + metric b /\ inch (a + b) = inch a + inch b /\
              metric 0 = 0 /\ inch 0 = 0.
Proof.
  exact (fun a b => conj (metric_add a b) (conj (inch_add a b) (conj metric_0 inch_0))).
Qed.
Print Assumptions C08_linear.

Theorem C08_order : forall a b, (a <= b <-> metric a <= metric b) /\ (a <= b <-> inch a <= inch b).
Proof. exact (fun a b => conj (metric_le a b) (inch_le a b)). Qed.
Print Assumptions C08_order.

Theorem C08_scale : metric 1 = Q2Qc (254 # 10).
Proof. exact metric_1. Qed.
Print Assumptions C08_scale.

Example C08_ex : this (metric (Q2Qc (1 # 2))) = (127 # 10)%Q /\ this (inch (Q2Qc (254 # 10))) = 1%Q.
Proof. split; vm_compute; reflexivity. Qed.

(** C58: the round trip fails in formats without integer or decimal digits... *)
Theorem C58_degenerate_formats_refuted :
  exists i d zs k s v, (i <= 6)%nat /\ (d <= 7)%nat /\ (Z.abs k < 10 ^ Z.of_nat (i + d))%Z /\
    write_gerber_value (grid k d) (i, d) zs = Ok s /\
    parse_gerber_value s (i, d) zs = Ok v /\ v <> grid k d.
Proof. exact C58_refuted_lemma. Qed.
Print Assumptions C58_degenerate_formats_refuted.

(** ... but holds for every supported format in 'leading' mode. Missing: 'trailing' and 'none' mode
    with zero integer or zero decimal digits, where it is false. *)
Theorem C58_degenerate_formats_partial :
  forall i d k, (i <= 6)%nat -> (d <= 7)%nat -> (1 <= i + d)%nat ->
  (Z.abs k < 10 ^ Z.of_nat (i + d))%Z ->
  exists s, write_gerber_value (grid k d) (i, d) Leading = Ok s /\
            parse_gerber_value s (i, d) Leading = Ok (grid k d).
Proof. exact C58_leading_lemma. Qed.
Print Assumptions C58_degenerate_formats_partial.

Example C58_ex : write_gerber_value (grid (-407) 5) (0, 5)%nat Leading = Ok (T "-407").
Proof. vm_compute. reflexivity. Qed.

(** C59: a value too large for the format is written without error and reads back as another
    value. *)
Theorem C59_overflow_refuted :
  exists i d zs v s w, usable_format i d /\
    write_gerber_value v (i, d) zs = Ok s /\
    parse_gerber_value s (i, d) zs = Ok w /\ half_ulp d < qabs (v - w).
Proof. exact C59_refuted_lemma. Qed.
Print Assumptions C59_overflow_refuted.

(** What does hold: a value that fits is never corrupted. Missing: values that do not fit. *)
Theorem C59_overflow_partial :
  forall i d zs v, usable_format i d -> fits i d v ->
  exists s w, write_gerber_value v (i, d) zs = Ok s /\
              parse_gerber_value s (i, d) zs = Ok w /\ qabs (v - w) <= half_ulp d.
Proof. exact C02_lemma. Qed.
Print Assumptions C59_overflow_partial.

Example C59_ex : fits 2 5 (Q2Qc (99999 # 1000)) /\ ~ fits 2 5 (Q2Qc (12345 # 100)).
Proof. split; vm_compute; [reflexivity|discriminate]. Qed.
