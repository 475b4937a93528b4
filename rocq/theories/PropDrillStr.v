(** C176: descriptions of the statements of drill files. *)
From Verif Require Import PyBase QcLib NumModel FmtModel ReportModel DumpModel DumpSpec ExcellonModel DrillStrModel DrillStrSpec DrillStrProofs.
Import ListNotations.
Open Scope list_scope.

(** Statements with the same description are of the same kind and have the same operands up to the sixth digit. *)
Theorem C176_tells_partial : forall s s' d, drill_str s = Some d -> drill_str s' = Some d -> drill_agree s s'.
Proof. exact drill_told. Qed.
Print Assumptions C176_tells_partial.
(** Coordinates, repeated holes, slots and unknown statements have a description. *)
Theorem C176_described : forall m x y n a b c d t,
  drill_str (ECoord m x y) <> None /\ drill_str (ERepeat n x y) <> None /\ drill_str (ESlot a b c d) <> None /\ drill_str (EUnknown t) <> None.
Proof. intros. repeat split; discriminate. Qed.
Print Assumptions C176_described.
(** Whether a coordinate is drilled, moved to or cut to is not told, *)
Theorem C176_mode_refuted : exists s s', s <> s' /\ drill_str s = drill_str s' /\ drill_str s <> None.
Proof. exists (ECoord None (Some 1%Qc) None), (ECoord (Some Rout) (Some 1%Qc) None). repeat split; discriminate. Qed.
Print Assumptions C176_mode_refuted.
(** nor are digits beyond the sixth. *)
Theorem C176_digits_refuted : exists x x', x <> x' /\ drill_str (ECoord None (Some x) None) = drill_str (ECoord None (Some x') None).
Proof. exists (Q2Qc (1234567 # 1000000)), (Q2Qc (1234568 # 1000000)). split; [|vm_compute; reflexivity]. intros E. apply (f_equal (fun q => Qnum (this q))) in E. discriminate E. Qed.
Print Assumptions C176_digits_refuted.

Example C176_ex : drill_str (ECoord None (Some (Q2Qc (5 # 4))) (Some (Q2Qc (- 1 # 2)))) = Some (T "<Coordinate Statement: X: 1.25 Y: -0.5 >") /\
  drill_str (ERepeat 3 (Some (Q2Qc (1 # 10))) None) = Some (T "<Repeat Hole: 3 times, offset X: 0.1 Y: 0>") /\
  drill_str (ESlot (Some 1%Qc) None None (Some (Q2Qc 2))) = Some (T "<Slot Statement: X: 1  to Y: 2 >") /\
  drill_str (EUnknown (T "G99")) = Some (T "<Unknown Statement: G99>").
Proof. repeat split; vm_compute; reflexivity. Qed.
