(** Geometry over the real numbers: rotation, angles and bounding boxes (gerber/utils.py,
    gerber/primitives.py).  Simplification: python's floats are exact real numbers here, so nothing
    is said about rounding. *)
From Coq Require Export Reals List.
From Verif Require Export BoxModel.
Import ListNotations.
Open Scope R_scope.
Open Scope list_scope.

Definition pt := (R * R)%type.
Definition rbox := ((R * R) * (R * R))%type.

(** math.radians *)
Definition radians (a : R) : R := a * (PI / 180).
(** utils.py:275-301 rotate_point *)
Definition rotate_point (p : pt) (angle : R) (c : pt) : pt :=
  let a := radians angle in
  (cos a * (fst p - fst c) - sin a * (snd p - snd c) + fst c,
   sin a * (fst p - fst c) + cos a * (snd p - snd c) + snd c).

(** math.atan2(y, x): the angle of the point (x, y), in (-PI, PI]. *)
Definition atan2 (y x : R) : R :=
  if Rlt_dec 0 x then atan (y / x)
  else if Rlt_dec x 0 then (if Rle_dec 0 y then atan (y / x) + PI else atan (y / x) - PI)
  else if Rlt_dec 0 y then PI / 2
  else if Rlt_dec y 0 then - (PI / 2)
  else 0.
(** a % b for a positive b *)
Definition rmod (a b : R) : R := a - b * IZR (Int_part (a / b)).

Definition half (x : R) : R := x / 2.
Definition circle_box := BoxModel.circle_box Rplus Rminus half.
Definition polygon_box := BoxModel.polygon_box Rplus Rminus.
Definition rect_box (p : pt) (rotation w h : R) : rbox :=
  BoxModel.rect_box Rplus Rminus Rmult half p (cos (radians rotation)) (sin (radians rotation)) w h.
Definition square_box := BoxModel.square_box Rplus Rminus half.
Definition donut_box := BoxModel.donut_box Rplus Rminus half.
Definition line_box0 := BoxModel.line_box0 Rmin Rmax.
Definition line_box_round := BoxModel.line_box_round Rplus Rminus half Rmin Rmax.
Definition line_box_rect := BoxModel.line_box_rect Rplus Rminus half Rmin Rmax.
Definition slot_box := BoxModel.slot_box Rplus Rminus half Rmin Rmax.
Definition boxes_box := BoxModel.boxes_box Rmin Rmax.
Definition points_box := BoxModel.points_box Rmin Rmax.

(** primitives.py:638-660 Ellipse *)
Definition ellipse_width (rotation w h : R) : R :=
  let ux := w / 2 * cos (radians rotation) in
  let vx := h / 2 * cos (radians rotation + PI / 2) in
  2 * sqrt (ux * ux + vx * vx).
Definition ellipse_height (rotation w h : R) : R :=
  let uy := w / 2 * sin (radians rotation) in
  let vy := h / 2 * sin (radians rotation + PI / 2) in
  2 * sqrt (uy * uy + vy * vy).
Definition ellipse_box (p : pt) (rotation w h : R) : rbox :=
  around Rplus Rminus p (ellipse_width rotation w h / 2) (ellipse_height rotation w h / 2).

(** primitives.py:1229-1240 Polygon.vertices: vertex number [i] of [n]. *)
Definition polygon_vertex (p : pt) (n : nat) (r rotation : R) (i : nat) : pt :=
  rotate_point (fst p + r, snd p) (rotation + 360 / INR n * INR i) p.

(** primitives.py:323-519 Arc *)
Inductive direction := Clockwise | Counterclockwise.
Inductive quadrants := SingleQuadrant | MultiQuadrant.
Record arc := mkArc { a_start : pt; a_end : pt; a_center : pt; a_dir : direction; a_quad : quadrants }.
(** 379-383: the names dy and dx are swapped, which makes no difference. *)
Definition radius (a : arc) : R :=
  let dy := fst (a_start a) - fst (a_center a) in
  let dx := snd (a_start a) - snd (a_center a) in
  sqrt (dy ^ 2 + dx ^ 2).
(** 385-395 *)
Definition start_angle (a : arc) : R := atan2 (snd (a_start a) - snd (a_center a)) (fst (a_start a) - fst (a_center a)).
Definition end_angle (a : arc) : R := atan2 (snd (a_end a) - snd (a_center a)) (fst (a_end a) - fst (a_center a)).
(** 400-401, 412-413, 467-468 *)
Definition theta0 (a : arc) : R := rmod (start_angle a + 2 * PI) (2 * PI).
Definition theta1 (a : arc) : R := rmod (end_angle a + 2 * PI) (2 * PI).
(** 397-406 *)
Definition sweep_angle (a : arc) : R :=
  match a_dir a with
  | Counterclockwise => Rabs (theta1 a - theta0 a)
  | Clockwise => rmod (Rabs (theta0 a + 2 * PI - theta1 a)) (2 * PI)
  end.

Definition leb (x y : R) : bool := if Rle_dec x y then true else false.
Definition ltb (x y : R) : bool := if Rlt_dec x y then true else false.
(** 415-447 and 470-506: does the arc pass through 0, 90, 180, 270 degrees?  The conditions for
    clockwise arcs are those for counterclockwise ones with the angles exchanged. *)
Definition crosses (t0 t1 q : R) : bool := (leb t0 q && (leb q t1 || leb t1 t0)) || (ltb q t1 && leb t1 t0).
Definition crosses0 (t0 t1 : R) : bool := leb t1 t0.
Definition extremes (a : arc) : list pt :=
  let (x, y) := a_center a in let r := radius a in
  match a_quad a with
  | SingleQuadrant => []
  | MultiQuadrant =>
      let (t0, t1) := match a_dir a with Counterclockwise => (theta0 a, theta1 a) | Clockwise => (theta1 a, theta0 a) end in
      (if crosses0 t0 t1 then [(x + r, y)] else []) ++
      (if crosses t0 t1 (PI / 2) then [(x, y + r)] else []) ++
      (if crosses t0 t1 PI then [(x - r, y)] else []) ++
      (if crosses t0 t1 (PI * (3 / 2)) then [(x, y - r)] else [])
  end.
(** 463-513 bounding_box_no_aperture *)
Definition arc_box0 (a : arc) : rbox := points_box (a_start a) (a_end a :: extremes a).
(** 408-461 bounding_box: an aperture with a radius, or with width and height. *)
Inductive aperture := Round (radius : R) | Sized (width height : R).
Definition arc_box (a : arc) (ap : aperture) : rbox :=
  match ap with
  | Round r => grow Rplus Rminus (arc_box0 a) r r
  | Sized w h => grow Rplus Rminus (arc_box0 a) w h
  end.
