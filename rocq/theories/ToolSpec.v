(** What tool tables, hole size comments, drill reports and settings files say, independently of the parsers.
    Of the model only data types are used ([munit], [unit_], [plating]). *)
From Verif Require Import PyBase QcLib NumModel NumSpec GerberText ExcellonModel ToolModel.
Open Scope Qc_scope.

(** ** Texts *)
(** An unsigned decimal number. *)
Inductive decimal : text -> Qc -> Prop :=
| decimal_int a : digit_string a -> a <> [] -> decimal a (grid (int_of a) 0)
| decimal_point a b : digit_string a -> digit_string b -> a ++ b <> [] -> decimal (a ++ T "." ++ b) (grid (int_of (a ++ b)) (List.length b)).
Definition number (t : text) (n : Z) : Prop := digit_string t /\ t <> [] /\ int_of t = n.
(** Blanks and tabs; at least one. *)
Definition blanks (s : text) : Prop := Forall (fun c => c = " "%char \/ c = "009"%char) s.
Definition gap (s : text) : Prop := blanks s /\ s <> [].
(** A line with its core indented and followed by blanks. *)
Inductive indented (P : text -> Prop) : text -> Prop :=
| indent a t b : blanks a -> blanks b -> P t -> indented P (a ++ t ++ b).
(** Words separated by gaps. *)
Definition word (w : text) : Prop := w <> [] /\ Forall (fun c => is_space c = false) w.
Inductive separated : list text -> text -> Prop :=
| sep_none : separated [] []
| sep_one w : word w -> separated [w] w
| sep_more w g ws t : word w -> gap g -> separated ws t -> ws <> [] -> separated (w :: ws) (w ++ g ++ t).
Definition columns (ws : list text) : text -> Prop := indented (separated ws).
Definition no_newline (t : text) : Prop := ~ In "010"%char t.

(** The last of several values given for a number. *)
Fixpoint latest {A} (n : Z) (l : list (Z * A)) : option A :=
  match l with
  | [] => None
  | (k, a) :: l' => match latest n l' with Some b => Some b | None => if (k =? n)%Z then Some a else None end
  end.

(** ** Tools *)
(** A tool which has not been used, and of which nothing more is known *)
Definition unused (t : tool) : Prop := t_hits t = 0%nat /\ t_retract t = None /\ t_maxhit t = None /\ t_depth t = None.
(** Where a tool is described, the size of its hole with its unit, and how it is plated. *)
Inductive origin := Table | Comment.
Record entry := mkEntry { e_from : origin; e_size : Qc; e_unit : munit; e_plating : plating }.
(** A row of a tool table: size in thousandths of an inch, plated or not, number and tolerances. *)
Inductive table_row : Z * entry -> text -> Prop :=
| a_row s size g1 p plated g2 ds n g3 x xt g4 y yt :
    decimal s size -> gap g1 -> (p, plated) = ("P"%char, PYes) \/ (p, plated) = ("N"%char, PNo) -> gap g2 ->
    number ds n -> List.length ds = 2%nat -> gap g3 -> decimal x xt -> gap g4 -> decimal y yt ->
    table_row (n, mkEntry Table size Mils plated) (s ++ g1 ++ [p] ++ g2 ++ T "T" ++ ds ++ g3 ++ x ++ g4 ++ y).
(** The hole sizes in comments: "Holesize 1. = 10 Tolerance = +2/-2 PLATED MILS Quantity = 3", also with the tool number in front. *)
Definition plating_text (p : plating) : text := match p with PYes => T "PLATED" | PNo => T "NON_PLATED" | POptional => T "OPTIONAL" end.
Definition munit_text (u : munit) : text := match u with Mils => T "MILS" | Mm => T "MM" end.
Inductive hole_size : Z * entry -> text -> Prop :=
| a_size ds n s size x xt y yt p u q k :
    number ds n -> (List.length ds <= 2)%nat -> decimal s size -> decimal x xt -> decimal y yt -> number q k ->
    hole_size (n, mkEntry Comment size u p)
      (T "Holesize " ++ ds ++ T ". = " ++ s ++ T " Tolerance = +" ++ x ++ T "/-" ++ y ++ T " " ++ plating_text p ++ T " " ++ munit_text u ++ T " Quantity = " ++ q)
| a_tool_size ds n hs h s size x xt y yt p u q k :
    number ds n -> (List.length ds <= 2)%nat -> number hs h -> (List.length hs <= 2)%nat -> decimal s size -> decimal x xt -> decimal y yt -> number q k ->
    hole_size (n, mkEntry Comment size u p)
      (T "T" ++ ds ++ T " Holesize " ++ hs ++ T ". = " ++ s ++ T " Tolerance = +" ++ x ++ T "/-" ++ y ++ T " " ++ plating_text p ++ T " " ++ munit_text u ++ T " Quantity = " ++ q).
(** Any other line: it begins like none of these. *)
Definition unrelated (t : text) : Prop := no_newline t /\ match t with [] => True | c :: _ => is_space c = false /\ ~ In c (T "0123456789./HT") end.
(** The lines of a tool file and what they say. *)
Inductive tool_file : list (Z * entry) -> list text -> Prop :=
| file_end : tool_file [] []
| file_row e t es ts : indented (fun t => table_row e t \/ hole_size e t) t -> tool_file es ts -> tool_file (e :: es) (t :: ts)
| file_other t es ts : indented unrelated t -> tool_file es ts -> tool_file es (t :: ts).
(** The size in inch or in millimetres. *)
Definition diameter_in (u : unit_) (e : entry) : Qc :=
  match u, e_unit e with
  | Inch, Mils => e_size e / zq 1000
  | Inch, Mm => e_size e / Q2Qc (254 # 10)
  | Metric, Mils => e_size e * Q2Qc (254 # 10000)
  | Metric, Mm => e_size e
  end.
(** Equal up to a relative error of two parts in 10^12. *)
Definition near (a b : Qc) : Prop := qabs (a - b) <= Q2Qc (2 # 1000000000000) * qabs b.

(** ** Reports *)
Record drill := mkDrill { dr_size : Qc; dr_plating : option plating; dr_feed : Z; dr_speed : Z }.
Definition mark (w : text) : option plating :=
  if teq w (T "x") then Some PYes else if teq w (T "-") then Some PNo else None.
Inductive report_row : Z * drill -> text -> Prop :=
| a_report_row i n s size w f feed v speed q k t :
    number i n -> decimal s size -> word w -> number f feed -> number v speed -> number q k ->
    columns [i; s; w; f; v; q] t -> report_row (n, mkDrill size (mark w) feed speed) t.
Definition rule : list text := map T ["===="; "===="; "===="; "===="; "====="; "==="]%string.
(** The rows below the rule, and other lines. *)
Inductive report_rows : list (Z * drill) -> list text -> Prop :=
| rows_end : report_rows [] []
| rows_row e t es ts : report_row e t -> report_rows es ts -> report_rows (e :: es) (t :: ts)
| rows_rule t es ts ws : columns ws t -> match ws with [] => True | w :: _ => hd " "%char w = "="%char \/ List.length ws <> 6%nat end ->
    report_rows es ts -> report_rows es (t :: ts).
(** What comes before the rule does not begin like it. *)
Definition heading (t : text) : Prop := exists ws, columns ws t /\ match ws with [] => True | w :: _ => hd " "%char w <> "="%char end.

(** ** Settings files *)
Inductive setting := Coordinates (absolute : bool) | OutputUnits (u : unit_) | IntegerPlaces (n : Z) | DecimalPlaces (n : Z).
Inductive setting_line : setting -> text -> Prop :=
| set_abs t : columns [T "COORDINATES"; T "ABSOLUTE"] t -> setting_line (Coordinates true) t
| set_inc t : columns [T "COORDINATES"; T "INCREMENTAL"] t -> setting_line (Coordinates false) t
| set_inch t : columns [T "OUTPUT-UNITS"; T "ENGLISH"] t -> setting_line (OutputUnits Inch) t
| set_metric t : columns [T "OUTPUT-UNITS"; T "METRIC"] t -> setting_line (OutputUnits Metric) t
| set_int n ds t : number ds n -> columns [T "INTEGER-PLACES"; ds] t -> setting_line (IntegerPlaces n) t
| set_dec n ds t : number ds n -> columns [T "DECIMAL-PLACES"; ds] t -> setting_line (DecimalPlaces n) t.
Definition setting_names : list text := map T ["COORDINATES"; "OUTPUT-UNITS"; "INTEGER-PLACES"; "DECIMAL-PLACES"]%string.
Inductive settings_file : list setting -> list text -> Prop :=
| settings_end : settings_file [] []
| settings_set e t es ts : setting_line e t -> settings_file es ts -> settings_file (e :: es) (t :: ts)
| settings_other ws t es ts : columns ws t -> match ws with [] => True | w :: _ => ~ In w setting_names end -> settings_file es ts -> settings_file es (t :: ts).
(** The last value given for each of the four. *)
Fixpoint last_of {A} (f : setting -> option A) (l : list setting) : option A :=
  match l with [] => None | s :: l' => match last_of f l' with Some a => Some a | None => f s end end.
Definition coordinates (s : setting) := match s with Coordinates b => Some b | _ => None end.
Definition output_units (s : setting) := match s with OutputUnits u => Some u | _ => None end.
Definition integer_places (s : setting) := match s with IntegerPlaces n => Some n | _ => None end.
Definition decimal_places (s : setting) := match s with DecimalPlaces n => Some n | _ => None end.
