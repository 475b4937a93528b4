(** Drill hits and slots converted one by one. *)
From Verif Require Import PyBase QcLib GerberText ExcellonModel.
Open Scope list_scope.
Open Scope Qc_scope.

(** A length given in the other unit: an inch is 25.4 millimetres. *)
Definition length_in (u : unit_) (v : Qc) : Qc := match u with Metric => v * Q2Qc (254 # 10) | Inch => v / Q2Qc (254 # 10) end.
Definition place_in (u : unit_) (p : point) : point := (length_in u (fst p), length_in u (snd p)).
(** The tool of a hit *)
Definition uses (h : hit) (l : tloc) : Prop := match h with Hit o _ => o = Some l | Slot o _ _ _ => o = Some l end.
(** All coordinates are there: those of a hole always are. *)
Definition complete (h : hit) : Prop :=
  match h with Hit _ _ => True | Slot _ a b _ => exists p q, a = (Some (fst p), Some (snd p)) /\ b = (Some (fst q), Some (snd q)) end.
(** The same hit in the unit [u], having been in the other one *)
Inductive changed (u : unit_) : hit -> hit -> Prop :=
| changed_hit o p : changed u (Hit o p) (Hit o (place_in u p))
| changed_slot o p q r : changed u (Slot o (Some (fst p), Some (snd p)) (Some (fst q), Some (snd q)) r)
    (Slot o (Some (length_in u (fst p)), Some (length_in u (snd p))) (Some (length_in u (fst q)), Some (length_in u (snd q))) r).
(** The tool of a hit is in the other unit, and none of the hits before has the same tool. *)
Definition first_of_tool (u : unit_) (s : list tool) (before : list hit) (h : hit) : Prop :=
  exists l t, uses h l /\ nth_error s l = Some t /\ xs_units (t_set t) <> u /\ forall g, In g before -> ~ uses g l.
(** A tool in the unit [u] *)
Definition tool_in (u : unit_) (t t' : tool) : Prop :=
  xs_units (t_set t') = u /\ (xs_units (t_set t) = u -> t' = t) /\
  (xs_units (t_set t) <> u -> t_diam t' = option_map (length_in u) (t_diam t)) /\
  t_num t' = t_num t /\ t_retract t' = t_retract t /\ t_feed t' = t_feed t /\ t_maxhit t' = t_maxhit t /\ t_rpm t' = t_rpm t /\ t_depth t' = t_depth t /\
  t_plated t' = t_plated t /\ t_hits t' = t_hits t /\ xs_format (t_set t') = xs_format (t_set t) /\ xs_zeros (t_set t') = xs_zeros (t_set t) /\ xs_notation (t_set t') = xs_notation (t_set t).
