(** What stays of a tool while a drill file is read on. *)
From Verif Require Import PyBase QcLib ExcellonModel.
Open Scope list_scope.

(** The same number and the same values; the holes may have become more, and plating may have become known. *)
Definition kept (t t' : tool) : Prop :=
  t_num t' = t_num t /\ t_retract t' = t_retract t /\ t_feed t' = t_feed t /\ t_maxhit t' = t_maxhit t /\ t_rpm t' = t_rpm t /\ t_diam t' = t_diam t /\
  t_depth t' = t_depth t /\ (t_hits t <= t_hits t')%nat /\ (t_plated t <> None -> t_plated t' = t_plated t).
