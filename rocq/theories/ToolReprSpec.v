(** What the description of a tool has to say. *)
From Verif Require Import PyBase QcLib NumModel NumSpec GerberText ExcellonModel ExcellonSpec.
Import ListNotations.
Open Scope list_scope.

Definition unit_word (u : unit_) : text := match u with Inch => T "in." | Metric => T "mm" end.
(** The text of a number which is the given one up to its [p]-th digit *)
Definition reads_as (p : nat) (v : Qc) (s : text) : Prop :=
  exists r, py_float s = Ok r /\ (qabs (v - r) <= Q2Qc (1 # 2) * dec 1 (p - 1) * qabs v)%Qc.
Definition describes (t : tool) (d : text) : Prop := exists number blanks size diameter,
  d = T "<ExcellonTool " ++ number ++ T ": " ++ repeat " "%char blanks ++ size ++ unit_word (xs_units (t_set t)) ++ T " dia.>" /\
  py_int number = Ok (t_num t) /\ t_diam t = Some diameter /\ reads_as (Nat.max 1 (snd (xs_format (t_set t)))) diameter size.
