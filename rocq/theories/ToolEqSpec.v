(** Tools that drill alike. *)
From Verif Require Import PyBase QcLib NumModel NumSpec ExcellonModel ExcellonSpec ToolSpec.
Import ListNotations.
Open Scope list_scope.

(** Every parameter and the units are the same: number, number of hits and other settings do not count. *)
Definition alike (t t' : tool) : Prop :=
  t_diam t = t_diam t' /\ t_feed t = t_feed t' /\ t_retract t = t_retract t' /\ t_rpm t = t_rpm t' /\ t_depth t = t_depth t' /\
  t_maxhit t = t_maxhit t' /\ t_plated t = t_plated t' /\ xs_units (t_set t) = xs_units (t_set t').
(** A list of numbers with slashes between them, and blanks around them. *)
Inductive links : list Z -> text -> Prop :=
| links_one n a ds b : blanks a -> number ds n -> blanks b -> links [n] (a ++ ds ++ b)
| links_more n l a ds b t : blanks a -> number ds n -> blanks b -> links l t -> links (n :: l) ((a ++ ds ++ b) ++ "/"%char :: t).
