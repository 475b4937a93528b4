(** What the corners of flashed primitives are expected to be. *)
From Verif Require Import GeomModel GeomSpec HullSpec MacroGeomSpec.
From Coq Require Import List Reals.
Import ListNotations.
Open Scope R_scope.

(** The area to the right of all sides of a contour. *)
Definition right_of_all (l : list pt) : shape := fun p => forall u v, In (u, v) (sides l) -> cross u v p <= 0.
(** The area spanned by points: what is in no direction farther out than all of them. *)
Definition spanned (l : list pt) : shape := fun p => forall w, exists c, In c l /\ along w p <= along w c.
(** A rectangle some corners of which are cut off at 45 degrees, [c] along each side; the corners are upper right,
    upper left, lower left and lower right. *)
Definition cut (on : bool) (w h c x y : R) : Prop := on = true -> x + y <= w / 2 + h / 2 - c.
Definition chamfered (w h c : R) (ur ul ll lr : bool) : shape := fun p =>
  oblong w h p /\ cut ur w h c (fst p) (snd p) /\ cut ul w h c (- fst p) (snd p) /\
  cut ll w h c (- fst p) (- snd p) /\ cut lr w h c (fst p) (- snd p).
(** Two lines which cross between their ends. *)
Definition crossing (s t : pt * pt) : Prop :=
  cross (fst s) (snd s) (fst t) * cross (fst s) (snd s) (snd t) < 0 /\
  cross (fst t) (snd t) (fst s) * cross (fst t) (snd t) (snd s) < 0.
(** The smallest box around some points. *)
Definition bounds_points (b : rbox) (l : list pt) : Prop := bounds b (fun p => In p l).
