(** What the statements of a converted Gerber file should show when they are evaluated again. *)
From Verif Require Export PyBase QcLib NumModel MacroModel GerberText GerberEval GerberEvalSpec HeapModel HeapSpec GerberConv GerberConvSpec.
Open Scope list_scope.
Open Scope Qc_scope.

(** ** The image in the other unit: all lengths multiplied, everything else kept *)
Definition times (k : Qc) (p : point) : point := (k * fst p, k * snd p).
Definition enlarge_shape (k : Qc) (s : shape) : shape :=
  match s with
  | ShCircle d hd hw hh => ShCircle (k * d) (k * hd) (k * hw) (k * hh)
  | ShRect w h hd hw hh => ShRect (k * w) (k * h) (k * hd) (k * hw) (k * hh)
  | ShObround w h hd hw hh => ShObround (k * w) (k * h) (k * hd) (k * hw) (k * hh)
  | ShPolygon n r rot hd hw hh => ShPolygon n (k * r) rot (k * hd) (k * hw) (k * hh)
  | ShMacro ps => ShMacro ps            (* not used: there are no macros in the files of the theorem *)
  end.
Definition enlarge_obj (k : Qc) (u : unit_) (o : obj) : obj :=
  mkObj (enlarge_shape k (o_shape o)) (omap (times k) (o_pos o)) (o_pol o) u.
Definition enlarge_seg (k : Qc) (u : unit_) (s : vseg) : vseg :=
  match s with
  | VLine a b ap pol _ => VLine (times k a) (times k b) (omap (enlarge_obj k u) ap) pol u
  | VArc a b c d ap q pol _ => VArc (times k a) (times k b) (omap (times k) c) d (omap (enlarge_obj k u) ap) q pol u
  end.
Definition enlarge (k : Qc) (u : unit_) (m : mark) : mark :=
  match m with
  | Stroke s => Stroke (enlarge_seg k u s)
  | Fill l pol _ => Fill (map (enlarge_seg k u) l) pol u
  | Stamp o => Stamp (enlarge_obj k u o)
  end.

(** Multiplying everything about an arc multiplies its centre. *)
Definition proportional (fc : centre_fun) : Prop :=
  forall k d a b o, 0 < k -> fc d (times k a) (times k b) (times k o) = omap (times k) (fc d a b o).
(** The unit is declared before anything is defined or drawn, and stays the same. *)
Definition declared (w : unit_) (l : list stmt) : Prop :=
  Forall (agrees w) l /\ exists pre post, l = pre ++ SMO true w :: post /\ Forall defines_nothing pre.
(** No aperture is a polygon or a macro. *)
Definition plain_apertures (s : stmt) : Prop :=
  match s with
  | SAD _ shape _ => shape = T "C" \/ shape = T "R" \/ shape = T "O"
  | SAM _ _ _ => False
  | _ => True
  end.
