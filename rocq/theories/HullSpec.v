(** What a convex hull is expected to be. *)
From Verif Require Import GeomModel.
From Coq Require Import List Reals.
Import ListNotations.
Open Scope R_scope.

(** Positive when [r] is to the left of the line from [p] to [q], zero when it is on it. *)
Definition cross (p q r : pt) : R := (fst q - fst p) * (snd r - snd p) - (snd q - snd p) * (fst r - fst p).
(** How far a point is in the direction [w]. *)
Definition along (w p : pt) : R := fst w * fst p + snd w * snd p.
(** The sides of a closed contour. *)
Definition sides (l : list pt) : list (pt * pt) :=
  match l with [] => [] | p :: r => combine l (r ++ [p]) end.

(** The corners are given points; every given point is on the left of or on every side; what is on the
    left of every side is in no direction farther out than the corners; and no corner can be left out: in some
    direction it is the farthest of all points. *)
Record is_hull (points corners : list pt) : Prop := {
  hull_given : forall c, In c corners -> In c points;
  hull_counterclockwise : forall u v p, In (u, v) (sides corners) -> In p points -> u <> v /\ 0 <= cross u v p;
  hull_covers : forall w p, (forall u v, In (u, v) (sides corners) -> 0 <= cross u v p) -> exists c, In c corners /\ along w p <= along w c;
  hull_corners : forall c, In c corners -> exists w, forall p, In p points -> p <> c -> along w p < along w c;
  hull_no_repetition : NoDup corners
}.
Definition on_a_line (points : list pt) : Prop :=
  forall p q r, In p points -> In q points -> In r points -> cross p q r = 0.
