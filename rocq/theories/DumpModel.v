(** Model of GerberFile's listing of statements: GerberParser.dump_str (gerber/rs274x.py:314-318) and the methods
    __str__ of gerber/gerber_statements.py. *)
From Verif Require Import PyBase QcLib NumModel FmtModel GerberText ReportModel.
Import ListNotations.
Open Scope list_scope.

(** '%d' % None raises TypeError (gerber_statements.py:661). *)
Definition show_opt_int (v : option Z) : res text :=
  match v with Some n => Ok (show_int n) | None => Err TypeError end.

(** The values of the attributes of 101-120 and 1120-1174 *)
Definition zeros_text (zs : zmode) : text :=
  match zs with Leading => T "leading" | Trailing => T "trailing" | NoSupp => T "none" end.
Definition notation_text (abs : bool) : text := if abs then T "absolute" else T "incremental".
Definition units_text (u : unit_) : text := match u with Inch => T "inch" | Metric => T "metric" end.

(** 376-386: the name of the shape of an aperture *)
Definition shape_text (shape : text) : text :=
  if teq shape (T "C") then T "circle"
  else if teq shape (T "R") then T "rectangle"
  else if teq shape (T "O") then T "obround"
  else shape.

(** 729-735, 803-809, 1038-1047: a number, when there is one *)
Definition number_part (label : string) (f : Qc -> text) (after : string) (v : option Qc) : text :=
  match v with Some q => T label ++ f q ++ T after | None => [] end.

(** 1038-1039, 1048-1057: the empty text counts as none *)
Definition function_part (fn : option text) : text :=
  match fn with Some (c :: r) => T "Fn: " ++ (c :: r) ++ T " " | _ => [] end.
Definition op_part (op : option text) : text :=
  match op with
  | Some (c :: r) =>
      let o := c :: r in
      T "Op: " ++ (if teq o (T "D01") then T "Lights On"
                   else if teq o (T "D02") then T "Lights Off"
                   else if teq o (T "D03") then T "Flash" else o)
  | _ => []
  end.

(** 52-59 Statement.__str__: the class and the attributes in the order they were set (type, units, mode); the last
    blank is stripped.  Simplification: dictionaries keep their order, as from python 3.7 on. *)
Definition default_text (cls type : string) (u : unit_) (mode : string) : text :=
  T "<" ++ T cls ++ T " type=" ++ T type ++ T " units=" ++ units_text u ++ T " mode=" ++ T mode ++ T ">".

(** str(stmt); [u] is the attribute units of the statement (rs274x.py:273-275).  Numbers are exact; '%g' writes six
    significant digits, '%f' six places. *)
Definition stmt_str (u : unit_) (s : stmt) : res text :=
  match s with
  | SFS zs abs f =>                                                            (* 168-170 *)
      Ok (T "<Format Spec: " ++ show_nat (Z.of_nat (fst f)) ++ T ":" ++ show_nat (Z.of_nat (snd f)) ++ T " " ++ zeros_text zs ++
          T " zero suppression " ++ notation_text abs ++ T " notation>")
  | SMO _ m => Ok (T "<Mode: " ++ match m with Metric => T "millimeters" | Inch => T "inches" end ++ T ">")   (* 224-226 *)
  | SLP p => Ok (T "<Level Polarity: " ++ match p with Clear => T "clear" | Dark => T "dark" end ++ T ">")    (* 263-264 *)
  | SAD d shape _ => Ok (T "<Aperture Definition: " ++ show_int d ++ T ": " ++ shape_text shape ++ T ">")     (* 376-386 *)
  | SAM name macro _ => Ok (T "<Aperture Macro " ++ name ++ T ": " ++ macro ++ T ">")                         (* 471-472 *)
  | SAS mode => Ok (T "<Axis Select: " ++ mode ++ T ">")                       (* 507-508 *)
  | SIN name => Ok (T "<Image Name: " ++ name ++ T ">")                        (* 541-542 *)
  | SIP p => Ok (T "<Image Polarity: " ++ (if p then T "positive" else T "negative") ++ T ">")                (* 578-579 *)
  | SIR a => Ok (T "<Image Angle: " ++ show_int a ++ T ">")                    (* 613-614 *)
  | SMI a b =>                                                                 (* 660-661 *)
      do ta <- show_opt_int a; do tb <- show_opt_int b;
      Ok (T "<Image Mirror: A=" ++ ta ++ T " B=" ++ tb ++ T ">")
  | SOF a b =>                                                                 (* 729-735 *)
      Ok (T "<Offset: " ++ number_part "X: " (format_f 0 6) " " a ++ number_part "Y: " (format_f 0 6) " " b ++ T ">")
  | SSF a b =>                                                                 (* 803-809 *)
      Ok (T "<Scale Factor: " ++ number_part "X: " (fmt_g 6) " " a ++ number_part "Y: " (fmt_g 6) "" b ++ T ">")
  | SLN name => Ok (T "<Level Name: " ++ name ++ T ">")                        (* 842-843 *)
  | SDep line => Ok (T "<Deprecated Statement: '" ++ line ++ T "'>")           (* 873-874 *)
  | SCoord fn x y i j op =>                                                    (* 1036-1059 *)
      Ok (T "<Coordinate Statement: " ++ function_part fn ++ number_part "X: " (fmt_g 6) " " x ++
          number_part "Y: " (fmt_g 6) " " y ++ number_part "I: " (fmt_g 6) " " i ++ number_part "J: " (fmt_g 6) " " j ++
          op_part op ++ T ">")
  | SAp d _ => Ok (T "<Aperture: " ++ show_int d ++ T ">")                     (* 1087-1088 *)
  | SCom c => Ok (T "<Comment: " ++ c ++ T ">")                                (* 1102-1103 *)
  | SEof => Ok (T "<EOF Statement>")                                           (* 1116-1117 *)
  | SQuad q => Ok (default_text "QuadrantModeStmt" "QuadrantMode" u          (* 1120-1147 *)
                     (match q with SingleQ => "single-quadrant" | MultiQ => "multi-quadrant" end))
  | SReg m => Ok (default_text "RegionModeStmt" "RegionMode" u               (* 1150-1174 *)
                     (match m with On => "on" | Off => "off" end))
  | SUnk line => Ok (T "<Unknown Statement: '" ++ line ++ T "'>")              (* 1188-1189 *)
  end.

(** rs274x.py:314-318 dump_str *)
Fixpoint dump_str (u : unit_) (l : list stmt) : res text :=
  match l with
  | [] => Ok []
  | s :: l' => do t <- stmt_str u s; do r <- dump_str u l'; Ok (t ++ [nl] ++ r)
  end.
