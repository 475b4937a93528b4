(** C174: comparison of statements. *)
From Verif Require Import PyBase QcLib NumModel GerberText ExcellonModel StmtEqModel StmtEqSpec StmtEqProofs.
Import ListNotations.
Open Scope list_scope.

(** Two statements of a Gerber file are equal exactly when they are of the same kind and hold the same. *)
Theorem C174_gerber : forall u s u' s', gerber_eq (u, s) (Stmt (u', s')) = Ok true <-> u = u' /\ s = s'.
Proof. exact gerber_iff. Qed.
Print Assumptions C174_gerber.
(** Comparing statements always gives an answer, *)
Theorem C174_answer_partial : forall a b a' b', exists r r', gerber_eq a (Stmt b) = Ok r /\ drill_eq a' (Stmt b') = Ok r'.
Proof. intros a [u s] [[u1 i1] s1] [[u2 i2] s2]. eexists. eexists. split; reflexivity. Qed.
Print Assumptions C174_answer_partial.
(** but comparing a statement with None or a number raises AttributeError. *)
Theorem C174_answer_refuted : forall a a', gerber_eq a Plain = Err AttributeError /\ drill_eq a' Plain = Err AttributeError.
Proof. intros a [[u i] s]. split; reflexivity. Qed.
Print Assumptions C174_answer_refuted.

(** Two statements of a drill file are equal exactly when they have the same id and units and hold the same, or are
    both only words, whichever these are. *)
Theorem C174_drill_partial : forall u id s u' id' s', drill_eq (u, id, s) (Stmt (u', id', s')) = Ok true <->
  id = id' /\ own_units u s = own_units u' s' /\ (s = s' \/ bare s /\ bare s').
Proof. exact drill_iff. Qed.
Print Assumptions C174_drill_partial.
(** So the same statement, made twice, is not equal to itself (ids are drawn at random), *)
Theorem C174_drill_refuted : forall u id id' s, id <> id' -> drill_eq (u, id, s) (Stmt (u, id', s)) = Ok false.
Proof.
  intros u id id' s N. destruct (drill_eq (u, id, s) (Stmt (u, id', s))) as [[|]|e] eqn:E; [|reflexivity|discriminate E].
  apply C174_drill_partial in E as (E & _). now destruct N.
Qed.
Print Assumptions C174_drill_refuted.
(** and the begin of the header is equal to its end when they are made with the same id. *)
Theorem C174_kinds_refuted : drill_eq (Inch, 1%Z, EHeaderBegin) (Stmt (Inch, 1%Z, EHeaderEnd)) = Ok true /\ EHeaderBegin <> EHeaderEnd.
Proof. split; [vm_compute; reflexivity|discriminate]. Qed.
Print Assumptions C174_kinds_refuted.

(** Offsets and scale factors have the same attributes but for the code; an integer is equal to the same float. *)
Example C174_ex : gerber_eq (Inch, SOF (Some 1%Qc) None) (Stmt (Inch, SSF (Some 1%Qc) None)) = Ok false /\
  gerber_eq (Inch, SOF (Some 1%Qc) None) (Stmt (Metric, SOF (Some 1%Qc) None)) = Ok false /\
  gerber_eq (Inch, SOF (Some 1%Qc) None) (Stmt (Inch, SOF (Some (zq 1)) None)) = Ok true.
Proof. repeat split; vm_compute; reflexivity. Qed.
Example C174_ex_drill : drill_eq (Inch, 7%Z, ECoord (Some Rout) (Some 1%Qc) None) (Stmt (Inch, 7%Z, ECoord (Some Rout) (Some 1%Qc) None)) = Ok true /\
  drill_eq (Inch, 7%Z, ECoord (Some Rout) (Some 1%Qc) None) (Stmt (Inch, 7%Z, ECoord None (Some 1%Qc) None)) = Ok false /\
  drill_eq (Inch, 7%Z, ECoord (Some Rout) (Some 1%Qc) None) (Stmt (Inch, 8%Z, ECoord (Some Rout) (Some 1%Qc) None)) = Ok false.
Proof. repeat split; vm_compute; reflexivity. Qed.
