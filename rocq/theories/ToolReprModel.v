(** Model of ExcellonTool.__repr__ (gerber/excellon_statements.py:270-273). *)
From Verif Require Import PyBase QcLib NumModel GerberText FmtModel ReportModel ExcellonModel ExcellonFile.
Import ListNotations.
Open Scope list_scope.

(** '%W.Pg' has P significant digits, one at least; the width is W at least.
    Simplification: the diameter is an exact rational; '%g' of None raises TypeError. *)
Definition tool_repr (t : tool) : res text :=
  match t_diam t with
  | None => Err TypeError
  | Some d =>
      let f := xs_format (t_set t) in
      Ok (T "<ExcellonTool " ++ show2 (t_num t) ++ T ": " ++ fill " " (fst f) (fmt_g (Nat.max 1 (snd f)) d) ++
          unit_text (xs_units (t_set t)) ++ T " dia.>")
  end.
