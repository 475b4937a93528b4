(** Model of FileSettings.__str__ (gerber/cam.py:172-174). *)
From Verif Require Import PyBase SettingsModel.
Import ListNotations.
Open Scope list_scope.

(** str() of a value: texts as they are, tuples of two integers as python writes them.  Simplification: a sequence is
    taken to be a tuple (a list is written in square brackets), and the final comma of a tuple of one is left out
    (formats are of length two, cam.py:87-89). *)
Fixpoint show_items (l : list Z) : text :=
  match l with [] => [] | [n] => show_int n | n :: l' => show_int n ++ T ", " ++ show_items l' end.
Definition show_val (v : val) : text :=
  match v with VStr s => s | VSeq l => T "(" ++ show_items l ++ T ")" end.
(** cam.py:172-174 *)
Definition settings_str (s : settings) : text :=
  T "<Settings: " ++ show_val s.(units) ++ T " " ++ show_val s.(notation) ++ T " " ++ show_val s.(zero_suppression) ++ T " " ++
  show_val s.(format) ++ T " " ++ show_val s.(angle_units) ++ T ">".
