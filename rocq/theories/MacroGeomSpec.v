(** What the primitives of an aperture macro look like according to the file format. *)
From Verif Require Import GeomModel GeomSpec HullSpec.
From Coq Require Import List Reals.
Import ListNotations.
Open Scope R_scope.

Definition origin : pt := (0, 0).
Definition moved (c : pt) (s : shape) : shape := fun p => s (fst p - fst c, snd p - snd c).
(** The area to the left of all sides of a contour. *)
Definition left_of_all (l : list pt) : shape := fun p => forall u v, In (u, v) (sides l) -> 0 <= cross u v p.

(** Every primitive is turned about the origin of the macro. *)
(** Code 21: width and height, centre. *)
Definition center_line_area (c : pt) (w h rotation : R) : shape := turned origin rotation (moved c (oblong w h)).
(** Codes 2 and 20: a rectangle from the start to the end, [w] across. *)
Definition ribbon (s e : pt) (w : R) : shape := fun p =>
  exists t k, 0 <= t <= 1 /\ - (w / 2) <= k <= w / 2 /\
    let l := sqrt (dist2 s e) in
    p = (fst s + t * (fst e - fst s) - k * ((snd e - snd s) / l), snd s + t * (snd e - snd s) + k * ((fst e - fst s) / l)).
Definition vector_line_area (s e : pt) (w rotation : R) : shape := turned origin rotation (ribbon s e w).
(** A point turned about the origin. *)
Definition turn (rotation : R) (p q : pt) : Prop :=
  let a := rotation * PI / 180 in q = (cos a * fst p - sin a * snd p, sin a * fst p + cos a * snd p).
(** A closed chain of lines through the given points. *)
Inductive joins : pt -> list pt -> list (pt * pt) -> Prop :=
| joins_end p : joins p [] []
| joins_line p q r l : joins q r l -> joins p (q :: r) ((p, q) :: l).
(** Code 5: corner number [i] of [n], before turning about the origin. *)
Definition polygon_corner (c : pt) (n : Z) (d : R) (i : nat) : pt :=
  let a := 2 * PI * INR i / IZR n in (fst c + d / 2 * cos a, snd c + d / 2 * sin a).
(** Code 7: the first quarter of the ring, without half the gap along either axis. *)
Definition quarter (outer inner gap : R) : shape := fun p =>
  (inner / 2) ^ 2 <= fst p ^ 2 + snd p ^ 2 <= (outer / 2) ^ 2 /\ gap / 2 <= fst p /\ gap / 2 <= snd p.
(** The corners of the quarter: at the gap, on the inner or the outer circle. *)
Definition quarter_corner (outer inner gap : R) (p : pt) : Prop :=
  0 <= fst p /\ 0 <= snd p /\ (fst p = gap / 2 \/ snd p = gap / 2) /\
  (fst p ^ 2 + snd p ^ 2 = (inner / 2) ^ 2 \/ fst p ^ 2 + snd p ^ 2 = (outer / 2) ^ 2).
