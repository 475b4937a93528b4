(** When statements of a drill file hold the same. *)
From Verif Require Import PyBase QcLib NumModel GerberText ExcellonModel.
Import ListNotations.
Open Scope list_scope.

(** Statements that are only a word, and the statement of the units *)
Definition bare (s : estmt) : Prop :=
  In s [EHeaderBegin; EHeaderEnd; ERewind; EZRout; ERetractC; ERetract; ECutOff; ECutLeft; ECutRight; ERoute; EDrill; EAbs] \/
  exists u, s = EMeasure u.
(** The units of a statement: its own, if it states units *)
Definition own_units (u : unit_) (s : estmt) : unit_ :=
  match s with EUnit w _ _ | EMeasure w => w | _ => u end.
