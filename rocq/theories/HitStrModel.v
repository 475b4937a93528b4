(** Model of DrillHit.__str__ (gerber/excellon.py:126-127). *)
From Verif Require Import PyBase QcLib NumModel GerberText ReportModel ExcellonModel ExcellonFile ToolReprModel.
Import ListNotations.
Open Scope list_scope.

(** '%s' of the tool of a hit: its __repr__, or None.
    Simplification: a place without a tool, which python does not have, is an AttributeError. *)
Definition tool_text (s : list tool) (o : option tloc) : res text :=
  match o with None => Ok (T "None") | Some l => do t <- tool_at s (Some l); tool_repr t end.
(** 126-127: '%f' writes six places; numbers are exact. *)
Definition hit_str (s : list tool) (o : option tloc) (pos : point) : res text :=
  do d <- tool_text s o;
  Ok (T "Hit (" ++ format_f 0 6 (fst pos) ++ T ", " ++ format_f 0 6 (snd pos) ++ T ") {" ++ d ++ T "}").
