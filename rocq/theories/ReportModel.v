(** Model of ExcellonFile.report (gerber/excellon.py:236-260).  The sum and the distance used for the path
    lengths (float addition and math.hypot, excellon.py:331-332) are any functions on numbers. *)
From Verif Require Import PyBase QcLib NumModel GerberText ExcellonModel ExcellonFile.
Open Scope Qc_scope.

(** str.format with a fill character and a width, aligned to the right ('{:0>2d}', '{: >3d}' and the default of
    numbers, 240-242). *)
Definition fill (c : ascii) (w : nat) (s : text) : text := repeat c (w - List.length s) ++ s.
(** '{:W.Df}' of a float (240-242): rounded to D decimals, ties to even on the exact value; the sign is kept
    when everything else is zero.  Simplification: v is an exact rational (no inf, nan or negative zero). *)
Definition format_f (w d : nat) (v : Qc) : text :=
  let body := if qclt v 0 then "-"%char :: py_fmt_f 0 d (- v) else py_fmt_f 0 d v in
  fill " " w body.

(** 239-242: toolfmt *)
Definition unit_text (u : unit_) : text := match u with Inch => T "in." | Metric => T "mm" end.
Definition row (se : xset) (number : Z) (diameter : Qc) (hits : nat) (length : Qc) : text :=
  T "  T" ++ fill "0" 2 (show_int number) ++ T "      " ++ format_f (fst (xs_format se)) (snd (xs_format se)) diameter ++
  T "     " ++ fill " " 3 (show_int (Z.of_nat hits)) ++ T "     " ++ format_f 0 6 length ++ unit_text (xs_units se) ++ [nl].

(** 249-252: the conditional expressions choose between the whole formatted line and the bare word. *)
Definition data_mode (n : notn) : text :=
  match n with Absolute => T "  Data Mode         Absolute" ++ [nl] | Incremental => T "Incremental" end.
Definition units_line (u : unit_) : text :=
  match u with Inch => T "  Units             Inches" ++ [nl] | Metric => T "Millimeters" end.
(** 243-255 *)
Definition heading (filename : option text) (se : xset) : text :=
  T "=====================" ++ nl :: T "Excellon Drill Report" ++ nl :: T "=====================" ++ [nl] ++
  match filename with Some f => T "NC Drill File: " ++ f ++ [nl; nl] | None => [] end ++
  T "Drill File Info:" ++ nl :: T "----------------" ++ [nl] ++
  data_mode (xs_notation se) ++ units_line (xs_units se) ++
  nl :: T "Tool List:" ++ nl :: T "----------" ++ [nl; nl] ++
  T "  Code      Size     Hits    Path Length" ++ nl ::
  T "  --------------------------------------" ++ [nl].

Section Report.
Variable add : Qc -> Qc -> Qc.
Variable dist : point -> point -> Qc.
(** 256-258: one tool; formatting None is a TypeError. *)
Definition tool_row (f : xfile) (e : Z * tloc) : res text :=
  do t <- tool_at (xf_store f) (Some (snd e));
  do len <- path_length Qc 0 add dist f (t_num t);
  match t_diam t, len with
  | Some d, Some l => Ok (row (xf_set f) (t_num t) d (t_hits t) l)
  | _, _ => Err TypeError
  end.
(** 236-262; the name of the file is not part of the model of the file.  Writing the text to a file is left out. *)
Definition report (filename : option text) (f : xfile) : res text :=
  do rows <- mapM (tool_row f) (xf_tools f);
  Ok (heading filename (xf_set f) ++ List.concat rows).
End Report.
