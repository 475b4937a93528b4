(** Gerber files which do not state their number format. *)
From Verif Require Import PyBase NumModel GerberText GerberTextSpec.
Import ListNotations.
Open Scope list_scope.

(** Absolute coordinates in inches, two digits before the decimal point and five after it, trailing zeros left out *)
Definition unstated : pset := {| p_zs := Trailing; p_fmt := (2, 5)%nat; p_abs := true; p_units := Inch |}.
(** No format is stated. *)
Definition no_format (l : list stmt) : Prop := forall z a f, ~ In (SFS z a f) l.
(** The units stated last *)
Fixpoint units_of (u : unit_) (l : list stmt) : unit_ :=
  match l with [] => u | SMO _ v :: l' => units_of v l' | _ :: l' => units_of u l' end.
