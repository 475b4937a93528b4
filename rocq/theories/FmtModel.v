(** Model of python's '%.Pg' formatting and of gerber/utils.py decimal_string. *)
From Verif Require Import PyBase QcLib NumModel.
Open Scope Qc_scope.

(** floor(log10 v) for v > 0. *)
Definition flog10 (v : Qc) : Z :=
  let n := Qnum (this v) in
  let m := Zpos (Qden (this v)) in
  if (m <=? n)%Z then (Z.of_nat (ndig (n / m)) - 1)%Z
  else (- Z.of_nat (ndig ((m + n - 1) / n - 1)))%Z.

(** n / 10^k written without trailing zeros: "12", "0.05". *)
Definition show_fixed (n : Z) (k : nat) : text :=
  let frac := rstrip_p (ceq "0"%char) (dig k (n mod p10 k)) in
  show_nat (n / p10 k) ++ (match frac with [] => [] | _ => "."%char :: frac end).

(** Exponent written with at least two digits. *)
Definition show_exp (e : Z) : text :=
  (if (e <? 0)%Z then T "e-" else T "e+") ++
  (let a := Z.abs e in if (a <? 10)%Z then "0"%char :: show_nat a else show_nat a).

(** '%.Pg' for a positive value: P significant digits, round half to even on the exact value,
    trailing zeros removed; exponent notation when the exponent is below -4 or at least P. *)
Definition fmt_g_pos (P : nat) (v : Qc) : text :=
  let e0 := flog10 v in
  let n0 := rhe (v * qpow10 (Z.of_nat P - 1 - e0)) in
  let (n, e) := if (n0 =? p10 P)%Z then (p10 (P - 1), e0 + 1)%Z else (n0, e0) in
  if ((-4 <=? e) && (e <? Z.of_nat P))%Z then show_fixed n (Z.to_nat (Z.of_nat P - 1 - e))
  else show_fixed n (P - 1) ++ show_exp e.

(** '%.Pg' % v.  Simplification: v is an exact rational (no inf, nan or negative zero). *)
Definition fmt_g (P : nat) (v : Qc) : text :=
  if qceq v 0 then T "0"
  else if qclt v 0 then "-"%char :: fmt_g_pos P (- v)
  else fmt_g_pos P v.

(** The text before and after the first occurrence of [c]. *)
Fixpoint cut_at (c : ascii) (s : text) : option (text * text) :=
  match s with
  | x :: r => if ceq x c then Some ([], r)
              else match cut_at c r with Some (a, b) => Some (x :: a, b) | None => None end
  | [] => None
  end.

(** utils.py:170-205 decimal_string(value, precision, padding).  The ',' branch and the final
    [int(floatstr)] branch are unreachable: '%0.10g' never writes ',' and never the empty string. *)
Definition decimal_string (v : Qc) (precision : nat) (padding : bool) : text :=
  let floatstr := fmt_g 10 v in                                          (* 186 *)
  let '(integer, decimal) := match cut_at "."%char floatstr with         (* 189-194 *)
                             | Some p => p
                             | None => (floatstr, T "0")
                             end in
  let decimal := if (precision <? List.length decimal)%nat then firstn precision decimal   (* 196-197 *)
                 else if padding then decimal ++ zeros (precision - List.length decimal)    (* 198-199 *)
                 else decimal in
  integer ++ "."%char :: decimal.                                        (* 201-202 *)
