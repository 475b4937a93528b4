(** What may change when a drill file is written in its number format and read again. *)
From Verif Require Export PyBase QcLib NumSpec ExcellonSpec ExcellonModel ExcellonFile.
From Verif Require Import RoundSpec.
Open Scope list_scope.
Open Scope Qc_scope.

(** One unit of the last decimal place. *)
Definition unit_place (d : nat) : Qc := 1 / ten d.
Definition opt_in_range (i d : nat) (o : option Qc) : Prop := match o with None => True | Some v => fits i d v end.
(** Diameters that are written without an exponent: 0, or at least 1/10000, and not too large. *)
Definition plain_diameter (d : nat) (v : Qc) : Prop := v = 0 \/ (Q2Qc (1 # 10000) <= v /\ v * ten d <= ten 9).
(** A tool whose numbers are in the range of the format; they need not be multiples of its last decimal place. *)
Definition tool_in_range (i d : nat) (t : tool) : Prop :=
  (1 <= t_num t < 1000)%Z /\ opt_in_range i d (t_retract t) /\ opt_in_range i d (t_feed t) /\ opt_in_range i d (t_maxhit t) /\ opt_in_range i d (t_depth t) /\
  match t_rpm t with None => True | Some r => r + Q2Qc 50 < Q2Qc 100000 /\ fits i d (r / Q2Qc 1000) end /\
  match t_diam t with None => True | Some v => plain_diameter d v end.
Definition hit_in_range (f : xfile) (i d : nat) (h : hit) : Prop :=
  exists n l x y, h = Hit (Some l) (x, y) /\ In (n, l) (xf_tools f) /\ fits i d x /\ fits i d y.
(** A hole with the same tool, of nearly the same diameter at nearly the same place. *)
Definition near_hole (d : nat) (a b : option (Z * option Qc * point)) : Prop :=
  match a, b with
  | Some (n, v, p), Some (m, w, q) => n = m /\ maybe (within (unit_place d)) v w /\ near_point (half_ulp d) p q
  | _, _ => False
  end.

(** ** The other unit *)
(** A tool whose diameter is in the range after the conversion to unit u, and whose other numbers are in the range. *)
Definition tool_in_range_in (u : unit_) (i d : nat) (t : tool) : Prop :=
  match t_diam t with None => True | Some v => plain_diameter d (factor u v) end /\
  tool_in_range i d (mkTool (t_num t) (t_retract t) (t_feed t) (t_maxhit t) (t_rpm t) None (t_depth t) (t_plated t) (t_hits t) (t_set t)).
(** The hole that should be drilled in unit u. *)
Definition same_hole_in (u : unit_) (d : nat) (a b : option (Z * option Qc * point)) : Prop :=
  match a, b with
  | Some (n, v, p), Some (m, w, q) => n = m /\ maybe (within (unit_place d)) (option_map (factor u) v) w /\ near_point (half_ulp d) (factor u (fst p), factor u (snd p)) q
  | _, _ => False
  end.
(** A hole with the diameter converted to unit u and the numbers of the position as they were. *)
Definition misplaced_hole (u : unit_) (d : nat) (a b : option (Z * option Qc * point)) : Prop :=
  match a, b with
  | Some (n, v, p), Some (m, w, q) => n = m /\ maybe (within (unit_place d)) (option_map (factor u) v) w /\ near_point (half_ulp d) p q
  | _, _ => False
  end.
(** A hole at least two units of the last decimal place away from one of the axes. *)
Definition off_origin (d : nat) (a : option (Z * option Qc * point)) : Prop :=
  match a with Some (_, _, p) => unit_place d + unit_place d <= qabs (fst p) \/ unit_place d + unit_place d <= qabs (snd p) | None => False end.
