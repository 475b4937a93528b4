(** Model of str() and repr() of python floats, as used by gerber/am_eval.py:106-108 and by the to_gerber
    methods of gerber/am_statements.py. *)
From Verif Require Import PyBase QcLib NumModel FmtModel FloatCodec.
Open Scope Qc_scope.

(** n / 10^k with at least one decimal: "12.0", "0.05". *)
Definition show_point (n : Z) (k : nat) : text :=
  show_fixed n k ++ (match rstrip_p (ceq "0"%char) (dig k (n mod p10 k)) with [] => T ".0" | _ => [] end).
(** A positive value with P significant digits, as repr lays them out: exponent notation when the
    exponent is below -4 or at least 16. *)
Definition fmt_r_pos (P : nat) (v : Qc) : text :=
  let e0 := flog10 v in
  let n0 := rhe (v * qpow10 (Z.of_nat P - 1 - e0)) in
  let (n, e) := if (n0 =? p10 P)%Z then (p10 (P - 1), e0 + 1)%Z else (n0, e0) in
  if ((-4 <=? e) && (e <? 16))%Z then
    (if (e <? Z.of_nat P)%Z then show_point n (Z.to_nat (Z.of_nat P - 1 - e))
     else show_point (n * p10 (Z.to_nat (e - (Z.of_nat P - 1)))) 0)
  else show_fixed n (P - 1) ++ show_exp e.
Definition fmt_r (P : nat) (v : Qc) : text :=
  if qceq v 0 then T "0.0"
  else if qclt v 0 then "-"%char :: fmt_r_pos P (- v)
  else fmt_r_pos P v.
(** The least number of digits, at most 17, with which the text reads as the double v. *)
Fixpoint digits_needed (fuel P : nat) (v : Qc) : nat :=
  match fuel with
  | O => 17
  | S fuel' =>
      match py_float (fmt_r P v) with
      | Ok w => if qceq (rnd53 w) v then P else digits_needed fuel' (S P) v
      | Err _ => digits_needed fuel' (S P) v
      end
  end.
(** repr of the double nearest to v (no inf, nan, negative zero or subnormal).  Simplification: of several
    shortest texts the one nearest to the double is tried, which may miss a shorter text at powers of two. *)
Definition py_repr (v : Qc) : text := let w := rnd53 v in fmt_r (digits_needed 16 1 w) w.
