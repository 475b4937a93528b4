(** Model of gerber/excellon_tool.py (tool tables and reports), of the tools given in comments of drill files
    (gerber/excellon.py:472-479), and of gerber/excellon_settings.py.
    Simplification: numbers are exact. *)
From Verif Require Import PyBase QcLib NumModel Regex GerberText DetectModel SettingsModel ExcellonModel.
Open Scope Qc_scope.
Open Scope list_scope.

(** ** Tool definitions *)
Inductive munit := Mils | Mm.
(** excellon_tool.py:56-60 *)
Definition size_char : ascii -> bool := one_of "0123456789/.".
Definition digit12 : re := Seq (Cls is_digit) (Opt (Cls is_digit)).
Definition allegro_tool : re :=
  seqs [G "size" (Plus_ size_char); Plus_ is_space; G "plated" (Alt (L "P") (L "N")); Plus_ is_space; L "T";
        G "toolid" (Seq (Cls is_digit) (Cls is_digit)); Plus_ is_space; G "xtol" (Plus_ size_char); Plus_ is_space; G "ytol" (Plus_ size_char)].
Definition hole_comment (unit : string) : re :=
  seqs [L "Holesize "; G "toolid" digit12; L ". = "; G "size" (Plus_ size_char); L " Tolerance = +"; G "xtol" (Plus_ size_char);
        L "/-"; G "ytol" (Plus_ size_char); L " "; G "plated" (Alt (L "PLATED") (Alt (L "NON_PLATED") (L "OPTIONAL")));
        L unit; Plus_ is_digit].
(** The second toolid, which is not used, is called toolid2. *)
Definition hole_comment2 (unit : string) : re :=
  seqs [L "T"; G "toolid" digit12; L " Holesize "; G "toolid2" digit12; L ". = "; G "size" (Plus_ size_char); L " Tolerance = +"; G "xtol" (Plus_ size_char);
        L "/-"; G "ytol" (Plus_ size_char); L " "; G "plated" (Alt (L "PLATED") (Alt (L "NON_PLATED") (L "OPTIONAL")));
        L unit; Plus_ is_digit].
(** 62-68 *)
Definition matchers : list (re * munit) :=
  [(allegro_tool, Mils); (hole_comment " MILS Quantity = ", Mils); (hole_comment2 " MILS Quantity = ", Mils);
   (hole_comment " MM Quantity = ", Mm); (hole_comment2 " MM Quantity = ", Mm)].
Fixpoint match_tool (l : list (re * munit)) (line : text) : option (caps * munit) :=
  match l with
  | [] => None
  | (r, u) :: l' => match re_match r line with Some (g, _) => Some (g, u) | None => match_tool l' line end
  end.
(** 113-124 _convert_length.  [units] is that of self.settings; without settings there is an AttributeError. *)
Definition mils_per_mm : Qc := Q2Qc (393700787402 # 10000000000).
Definition convert_length (units : option unit_) (v : Qc) (u : munit) : res Qc :=
  let mm := match u with Mils => v / mils_per_mm | Mm => v end in
  match units with
  | None => Err AttributeError
  | Some Inch => Ok (mm / Q2Qc (254 # 10))
  | Some Metric => Ok mm
  end.
(** 97-104; anything else is PLATED_UNKNOWN, which is None. *)
Definition plating_of (t : text) : option plating :=
  if teq t (T "PLATED") then Some PYes else if teq t (T "NON_PLATED") then Some PNo else if teq t (T "OPTIONAL") then Some POptional else None.
(** A tool without settings: whoever takes it over assigns them before they are used (excellon.py:780-795). *)
Definition new_tool (n : Z) (d : Qc) (feed rpm : option Qc) (p : option plating) : tool :=
  mkTool n None feed None rpm (Some d) None p 0 x_default.
(** 80-111 _parse *)
Definition tool_line (units : option unit_) (line : text) : res (option tool) :=
  match match_tool matchers line with
  | None => Ok None
  | Some (g, u) =>
      do size <- py_float_opt (group "size" g);
      do n <- py_int_opt (group "toolid" g);
      do xtol <- py_float_opt (group "xtol" g);
      do ytol <- py_float_opt (group "ytol" g);
      do size <- convert_length units size u;
      do _ <- convert_length units xtol u;
      do _ <- convert_length units ytol u;
      Ok (Some (new_tool n size None None (plating_of (dflt (group "plated" g)))))
  end.
(** 74-78 parse_raw, and loads (34-46) *)
Fixpoint tool_lines (units : option unit_) (tools : list (Z * tool)) (l : list text) : res (list (Z * tool)) :=
  match l with
  | [] => Ok tools
  | t :: l' => do o <- tool_line units t; tool_lines units (match o with Some x => dput (t_num x) x tools | None => tools end) l'
  end.
Definition load_tools (units : option unit_) (data : text) : res (list (Z * tool)) := tool_lines units [] (lines_of data).

(** excellon.py:475-478: the tool in a comment.  [py3]: the version of python; dict.keys() has no [] from 3 on. *)
Definition holesize (py3 : bool) (units : unit_) (comment : text) : res (option tool) :=
  do tools <- load_tools (Some units) comment;
  match tools with
  | [(_, t)] => if py3 then Err TypeError else Ok (Some t)
  | _ => Ok None
  end.

(** ** Reports (140-190) *)
Definition report_header : re :=
  seqs [L "===="; Plus_ is_space; L "===="; Plus_ is_space; L "===="; Plus_ is_space; L "===="; Plus_ is_space; L "====="; Plus_ is_space; L "==="].
Definition report_plating (t : text) : option plating :=
  if teq t (T "x") then Some PYes else if teq t (T "-") then Some PNo else None.
(** 158-190 _parse *)
Definition report_line (st : bool * list (Z * tool)) (line : text) : res (bool * list (Z * tool)) :=
  let (found, tools) := st in
  match strip line with
  | [] => Ok st
  | c :: _ =>
      if negb found then Ok ((match re_match report_header line with Some _ => true | None => false end), tools)
      else if ceq (hd c line) "="%char then Ok st
      else match words line with
           | [id; size; plated; feed; speed; qty] =>
               do n <- py_int id; do d <- py_float size; do f <- py_int feed; do s <- py_int speed; do _ <- py_int qty;
               Ok (found, dput n (new_tool n d (Some (zq f)) (Some (zq s)) (report_plating plated)) tools)
           | _ => Ok st
           end
  end.
Fixpoint report_lines (st : bool * list (Z * tool)) (l : list text) : res (bool * list (Z * tool)) :=
  match l with [] => Ok st | t :: l' => do st <- report_line st t; report_lines st l' end.
(** 152-156, and loads_rep (126-138) *)
Definition load_report (data : text) : res (list (Z * tool)) := do st <- report_lines (false, []) (lines_of data); Ok (snd st).

(** ** Settings files: excellon_settings.py *)
(** 50-68: the four keys, and the functions for their values. *)
Definition map_coordinates (v : text) : text := if teq v (T "ABSOLUTE") then T "absolute" else T "relative".
Definition map_units (v : text) : text := if teq v (T "ENGLISH") then T "inch" else T "metric".
Record values := mkValues { v_notation : option text; v_units : option text; v_int : option Z; v_dec : option Z }.
(** 95-104 _parse *)
Definition settings_line (vs : values) (line : text) : res values :=
  match words line with
  | [k; v] =>
      if teq k (T "INTEGER-PLACES") then do n <- py_int v; Ok (mkValues (v_notation vs) (v_units vs) (Some n) (v_dec vs))
      else if teq k (T "DECIMAL-PLACES") then do n <- py_int v; Ok (mkValues (v_notation vs) (v_units vs) (v_int vs) (Some n))
      else if teq k (T "COORDINATES") then Ok (mkValues (Some (map_coordinates v)) (v_units vs) (v_int vs) (v_dec vs))
      else if teq k (T "OUTPUT-UNITS") then Ok (mkValues (v_notation vs) (Some (map_units v)) (v_int vs) (v_dec vs))
      else Ok vs
  | _ => Ok vs
  end.
Fixpoint settings_lines (vs : values) (l : list text) : res values :=
  match l with [] => Ok vs | t :: l' => do vs <- settings_line vs t; settings_lines vs l' end.
Definition key {A} (o : option A) : res A := match o with Some a => Ok a | None => Err KeyError end.
(** 82-93 parse_raw *)
Definition load_settings (data : text) : res settings :=
  do vs <- settings_lines (mkValues None None None None) (lines_of data);
  do n <- key (v_notation vs); do u <- key (v_units vs); do i <- key (v_int vs); do d <- key (v_dec vs);
  file_settings (VStr n) (VStr u) None (VSeq [i; d]) None (SettingsModel.S "degrees").
