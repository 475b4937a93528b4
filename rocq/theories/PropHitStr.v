(** C182: descriptions of drill hits. *)
From Verif Require Import PyBase QcLib NumModel NumSpec GerberText ReportModel ExcellonModel ExcellonFile DumpSpec ToolReprModel ToolReprSpec HitStrModel HitStrSpec HitStrProofs.
Import ListNotations.
Open Scope list_scope.

(** Hits with one description are at one place, up to a millionth, and have tools alike. *)
Theorem C182_tells : forall s s' o o' p p' d, hit_str s o p = Ok d -> hit_str s' o' p' = Ok d ->
  close 1000000 (fst p) (fst p') /\ close 1000000 (snd p) (snd p') /\ same_tools s s' o o'.
Proof. exact hit_told. Qed.
Print Assumptions C182_tells.

Definition hit_set : xset := mkXset Metric (3, 3)%nat ZLead Absolute.
Definition hit_tools : list tool := [plain_tool 7 (Q2Qc (1 # 2)) hit_set; plain_tool 8 (Q2Qc (1 # 2)) hit_set].
Example C182_ex :
  hit_str hit_tools (Some 0%nat) (Q2Qc (3 # 2), Q2Qc (- 1 # 4)) = Ok (T "Hit (1.500000, -0.250000) {<ExcellonTool 07: 0.5mm dia.>}") /\
  hit_str hit_tools (Some 1%nat) (Q2Qc (3 # 2), Q2Qc (- 1 # 4)) = Ok (T "Hit (1.500000, -0.250000) {<ExcellonTool 08: 0.5mm dia.>}") /\
  hit_str hit_tools None (Q2Qc 0, Q2Qc 1) = Ok (T "Hit (0.000000, 1.000000) {None}").
Proof. repeat split; vm_compute; reflexivity. Qed.
