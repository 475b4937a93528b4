(** What counts as a point. *)
From Verif Require Import PyBase QcLib ValidModel.
Import ListNotations.
Open Scope list_scope.

Definition number (v : pyval) : Prop := (exists n, v = PInt n) \/ (exists q, v = PFloat q) \/ (exists b, v = PBool b).
(** A pair of numbers, or None *)
Definition point (v : pyval) : Prop := v = PNone \/ exists x y, v = PSeq [x; y] /\ number x /\ number y.
