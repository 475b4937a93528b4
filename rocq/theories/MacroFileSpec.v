(** Gerber files with aperture macros which can be written and read back. *)
From Verif Require Import PyBase QcLib NumModel NumSpec MacroModel GerberText GerberTextSpec GerberEval GerberEvalSpec AmModel AmSpec AmRenderSpec.
Open Scope list_scope.

(** The dimensions of the apertures that are made, in [l], from the macro [name] which is defined just before: up to
    the next macro of that name. *)
Fixpoint made_from (name : text) (l : list stmt) : list (list Qc) :=
  match l with
  | [] => []
  | SAM n _ _ :: r => if teq n name then [] else made_from name r
  | SAD _ n (dims :: _) :: r => if teq n name then dims :: made_from name r else made_from name r
  | _ :: r => made_from name r
  end.
(** All the apertures made from the macro, if there are any, have the same primitives, and these can be written exactly. *)
Definition one_shape (body : text) (uses : list (list Qc)) : Prop :=
  uses = [] \/ exists i ps, read_macro body = Ok i /\ ps <> [] /\ Forall prim_writable ps /\ Forall (fun dims => am_build i dims = Ok ps) uses.
Fixpoint one_shape_each (l : list stmt) : Prop :=
  match l with
  | [] => True
  | SAM n body _ :: r => one_shape body (made_from n r) /\ one_shape_each r
  | _ :: r => one_shape_each r
  end.
(** The other statements can be written exactly. *)
Definition rest_writable (st : pset) (s : stmt) : Prop :=
  match s with SAM n _ _ => macro_name n | _ => line_writable st s end.
(** The same marks, where the apertures made from macros have the same primitives. *)
Definition same_shape (a b : shape) : Prop :=
  a = b \/ exists l k ps, a = ShMacro l /\ b = ShMacro k /\ primitives_of l = Ok ps /\ primitives_of k = Ok ps.
Definition same_obj (a b : obj) : Prop := same_shape (o_shape a) (o_shape b) /\ o_pos a = o_pos b /\ o_pol a = o_pol b /\ o_units a = o_units b.
Definition same_opt (a b : option obj) : Prop := match a, b with Some x, Some y => same_obj x y | None, None => True | _, _ => False end.
Definition same_seg (a b : vseg) : Prop :=
  match a, b with
  | VLine p q ap pol u, VLine p' q' ap' pol' u' => p = p' /\ q = q' /\ same_opt ap ap' /\ pol = pol' /\ u = u'
  | VArc p q c d ap m pol u, VArc p' q' c' d' ap' m' pol' u' => p = p' /\ q = q' /\ c = c' /\ d = d' /\ same_opt ap ap' /\ m = m' /\ pol = pol' /\ u = u'
  | _, _ => False
  end.
Definition same_mark (a b : mark) : Prop :=
  match a, b with
  | Stroke s, Stroke s' => same_seg s s'
  | Fill l pol u, Fill l' pol' u' => Forall2 same_seg l l' /\ pol = pol' /\ u = u'
  | Stamp o, Stamp o' => same_obj o o'
  | _, _ => False
  end.
