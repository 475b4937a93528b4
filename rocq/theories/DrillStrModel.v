(** Model of the methods __str__ of gerber/excellon_statements.py. *)
From Verif Require Import PyBase QcLib NumModel FmtModel ReportModel DumpModel ExcellonModel.
Import ListNotations.
Open Scope list_scope.

(** str(stmt); None for the classes that do not define __str__ (python then shows the class and the place in memory,
    or for a tool its __repr__, see ToolReprModel.v).  Numbers are exact; '%g' writes six significant digits. *)
Definition drill_str (s : estmt) : option text :=
  match s with
  | ECoord _ x y =>                                                            (* 438-445 *)
      Some (T "<Coordinate Statement: " ++ number_part "X: " (fmt_g 6) " " x ++ number_part "Y: " (fmt_g 6) " " y ++ T ">")
  | ERepeat n x y =>                                                           (* 498-502 *)
      let num v := match v with Some q => q | None => 0%Qc end in
      Some (T "<Repeat Hole: " ++ show_int n ++ T " times, offset X: " ++ fmt_g 6 (num x) ++ T " Y: " ++ fmt_g 6 (num y) ++ T ">")
  | EUnknown t => Some (T "<Unknown Statement: " ++ t ++ T ">")                (* 840-841 *)
  | ESlot xs ys xe ye =>                                                       (* 956-969 *)
      Some (T "<Slot Statement: " ++ number_part "X: " (fmt_g 6) " " xs ++ number_part "Y: " (fmt_g 6) " " ys ++ T " to " ++
            number_part "X: " (fmt_g 6) " " xe ++ number_part "Y: " (fmt_g 6) " " ye ++ T ">")
  | _ => None
  end.
