(** What the description of a hit is to tell. *)
From Verif Require Import PyBase QcLib NumModel NumSpec GerberText ExcellonModel ExcellonSpec DumpSpec ToolReprSpec.
Import ListNotations.
Open Scope list_scope.

(** Two tools of one number and unit, and one text that states the diameters of both to their digits *)
Definition tools_alike (t t' : tool) : Prop :=
  t_num t = t_num t' /\ xs_units (t_set t) = xs_units (t_set t') /\
  exists d d' size, t_diam t = Some d /\ t_diam t' = Some d' /\
    reads_as (Nat.max 1 (snd (xs_format (t_set t)))) d size /\ reads_as (Nat.max 1 (snd (xs_format (t_set t')))) d' size.
(** Both hits without a tool, or with such tools *)
Definition same_tools (s s' : list tool) (o o' : option tloc) : Prop :=
  match o, o' with
  | None, None => True
  | Some l, Some l' => exists t t', nth_error s l = Some t /\ nth_error s' l' = Some t' /\ tools_alike t t'
  | _, _ => False
  end.
