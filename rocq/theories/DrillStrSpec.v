(** When two statements of a drill file say the same up to the sixth digit. *)
From Verif Require Import PyBase QcLib NumModel DumpSpec ExcellonModel.
Import ListNotations.
Open Scope list_scope.

(** No operand counts as zero. *)
Definition or_zero (v : option Qc) : Qc := match v with Some q => q | None => 0%Qc end.
(** The same kind with the same operands up to the sixth digit; whether the tool is moved or cuts is left open. *)
Definition drill_agree (s s' : estmt) : Prop :=
  match s, s' with
  | ECoord _ x y, ECoord _ x' y' => both (nearly 200000) x x' /\ both (nearly 200000) y y'
  | ERepeat n x y, ERepeat n' x' y' => n = n' /\ nearly 200000 (or_zero x) (or_zero x') /\ nearly 200000 (or_zero y) (or_zero y')
  | EUnknown t, EUnknown t' => t = t'
  | ESlot a b c d, ESlot a' b' c' d' =>
      both (nearly 200000) a a' /\ both (nearly 200000) b b' /\ both (nearly 200000) c c' /\ both (nearly 200000) d d'
  | _, _ => False
  end.
