(** Similar pictures: moved, or magnified. *)
From Verif Require Import PyBase QcLib GeomModel GeomSpec CairoSpec MacroGeomModel.
Import ListNotations.
Open Scope R_scope.
Open Scope list_scope.

(** Magnified by [k], then moved by [d]. *)
Definition similar (k : R) (d p : pt) : pt := (k * fst p + fst d, k * snd p + snd d).
Definition similar_box (k : R) (d : pt) (b : rbox) : rbox :=
  ((k * fst (fst b) + fst d, k * snd (fst b) + fst d), (k * fst (snd b) + snd d, k * snd (snd b) + snd d)).
(** A way to fill contours which moves with them.  (That it grows with them is part of [filling].) *)
Definition moves_along (fill : list curve -> shape) : Prop := forall d l p,
  fill (map (fun (f : curve) t => similar 1 d (f t)) l) (similar 1 d p) <-> fill l p.
