(** C180: checking of points. *)
From Verif Require Import PyBase QcLib ValidModel ValidSpec ValidProofs.
Import ListNotations.
Open Scope list_scope.

(** Pairs of numbers and None are accepted, anything else raises TypeError. *)
Theorem C180_point : forall v,
  (validate_coordinates v = Ok tt <-> point v) /\ (validate_coordinates v = Ok tt \/ validate_coordinates v = Err TypeError).
Proof. exact valid_iff. Qed.
Print Assumptions C180_point.
(** An outline is accepted exactly when all its points are. *)
Theorem C180_outline : forall s ps,
  (validate_points s ps = Ok tt <-> point s /\ Forall point ps) /\ (validate_points s ps = Ok tt \/ validate_points s ps = Err TypeError).
Proof. exact points_iff. Qed.
Print Assumptions C180_outline.

Example C180_ex : point (PSeq [PInt 1; PFloat (Q2Qc (1 # 2))]) /\ validate_coordinates (PText (T "12")) = Err TypeError /\
  validate_coordinates (PSeq [PInt 1; PInt 2; PInt 3]) = Err TypeError /\ validate_coordinates (PInt 5) = Err TypeError /\
  validate_points (PSeq [PInt 0; PInt 0]) [PSeq [PInt 1; PInt 0]; PSeq [PInt 1; PNone]] = Err TypeError.
Proof. split; [|repeat split]. right. exists (PInt 1), (PFloat (Q2Qc (1 # 2))). split; [reflexivity|]. split; [left|right; left]; eexists; reflexivity. Qed.
