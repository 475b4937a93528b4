(** Specification vocabulary for the coordinate codec: nothing of the model but the type [zmode]. *)
From Verif Require Import PyBase QcLib NumModel.
Open Scope Qc_scope.

(** A format with at least one integer and one decimal digit, within the supported 6:7. *)
Definition usable_format (i d : nat) : Prop := (1 <= i <= 6)%nat /\ (1 <= d <= 7)%nat.

(** Ten to the power k, and the k-th grid point of a format with d decimals. *)
Definition ten (k : nat) : Qc := Qcpower (Q2Qc 10) k.
Definition grid (k : Z) (d : nat) : Qc := Q2Qc (inject_Z k) / ten d.

(** Absolute value and one half unit in the last place. *)
Definition qabs (v : Qc) : Qc := if Qclt_le_dec v 0 then - v else v.
Definition half_ulp (d : nat) : Qc := Q2Qc (1 # 2) / ten d.

(** Rounded to d decimals the value still has at most i integer digits: it is less than half a unit
    away from (or below) the largest representable number 10^i - 10^-d. *)
Definition fits (i d : nat) (v : Qc) : Prop := qabs v + half_ulp d < ten i.

Definition digit_string (s : text) : Prop := Forall (fun c => In c (T "0123456789")) s.

(** Value of a digit string by positional notation. *)
Fixpoint positional (s : text) (acc : Z) : Z :=
  match s with
  | [] => acc
  | c :: r =>
      let d := match nat_of_ascii c with
               | 48 => 0 | 49 => 1 | 50 => 2 | 51 => 3 | 52 => 4
               | 53 => 5 | 54 => 6 | 55 => 7 | 56 => 8 | 57 => 9 | _ => 0
               end%nat in
      positional r (acc * 10 + Z.of_nat d)%Z
  end.
Definition int_of (s : text) : Z := positional s 0.

(** Allowed shape of the digits of a written non-zero coordinate. *)
Definition digits_shape (i d : nat) (zs : zmode) (ds : text) : Prop :=
  ds <> [] /\ digit_string ds /\ (List.length ds <= i + d)%nat /\
  match zs with
  | Trailing => forall r, ds <> r ++ T "0"
  | Leading => forall r, ds <> T "0" ++ r
  | NoSupp => List.length ds = (i + d)%nat
  end.
