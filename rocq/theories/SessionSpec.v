(** What to expect of a drawing context, in terms of what its methods return. *)
From Verif Require Import PyBase QcLib ThemeModel ThemeSpec SessionModel.
Open Scope list_scope.
Open Scope Qc_scope.

(** The same scale and colours, as the user has set them. *)
Definition set_alike {P} (c c' : context P) : Prop :=
  scale P c = scale P c' /\ color_ P c = color_ P c' /\ alpha P c = alpha P c' /\ background P c = background P c'.
(** The context of someone who has only set the scale and the colours. *)
Definition unused {P} (c : context P) : context P := mkContext P (scale P c) None None None false 0 (color_ P c) (alpha P c) (background P c) false.
Definition settled {P} (c : context P) : Prop := good_color (color_ P c) /\ good_color (background P c) /\ between01 (alpha P c).
(** Nothing has happened to the image, nor to where and how things are drawn on it. *)
Definition same_canvas {P} (c c' : context P) : Prop :=
  scale P c' = scale P c /\ origin P c' = origin P c /\ size P c' = size P c /\ surf P c' = surf P c /\ has_bg P c' = has_bg P c /\ count P c' = count P c /\ inverted P c' = inverted P c.
(** Colours that can be set *)
Definition three (l : list Qc) (k : color) : Prop := l = [red k; green k; blue k].
