(** What the geometry of the primitives is expected to be: shapes as sets of points. *)
From Verif Require Export GeomModel.
Open Scope R_scope.
Open Scope list_scope.

Definition dist2 (p q : pt) : R := (fst p - fst q) ^ 2 + (snd p - snd q) ^ 2.

(** ** Shapes *)
Definition shape := pt -> Prop.
Definition disc (c : pt) (r : R) : shape := fun p => dist2 p c <= r ^ 2.
Definition segment (a b : pt) : shape := fun p =>
  exists t, 0 <= t <= 1 /\ p = (fst a + t * (fst b - fst a), snd a + t * (snd b - snd a)).
(** A shape drawn along a path: everything the tool covers. *)
Definition stroke (path tool : shape) : shape := fun p =>
  exists q v, path q /\ tool v /\ p = (fst q + fst v, snd q + snd v).
(** Width by height, turned by [rot] degrees about its centre. *)
Definition turned (c : pt) (rot : R) (s : shape) : shape := fun p =>
  exists q, s q /\ p = (fst c + (cos (rot * PI / 180) * fst q - sin (rot * PI / 180) * snd q),
                        snd c + (sin (rot * PI / 180) * fst q + cos (rot * PI / 180) * snd q)).
Definition oblong (w h : R) : shape := fun p => - (w / 2) <= fst p <= w / 2 /\ - (h / 2) <= snd p <= h / 2.
(** A rectangle whose short sides are half circles. *)
Definition capsule (w h : R) : shape :=
  if Rlt_dec w h then stroke (segment (0, (w - h) / 2) (0, (h - w) / 2)) (disc (0, 0) (w / 2))
  else stroke (segment ((h - w) / 2, 0) ((w - h) / 2, 0)) (disc (0, 0) (h / 2)).
Definition oval (w h : R) : shape := fun p => exists a b, a ^ 2 + b ^ 2 <= 1 /\ p = (a * (w / 2), b * (h / 2)).
Definition rhombus (w h : R) : shape := fun p =>
  exists a b, Rabs a + Rabs b <= 1 /\ p = (a * (w / 2), b * (h / 2)).
(** A polygon: the triangles between the centre and each side. *)
Definition polygon (c : pt) (n : nat) (vertex : nat -> pt) : shape := fun p =>
  exists i s t, (i < n)%nat /\ 0 <= s /\ 0 <= t /\ s + t <= 1 /\
    let a := vertex i in let b := vertex (S i) in
    p = (fst c + s * (fst a - fst c) + t * (fst b - fst c), snd c + s * (snd a - snd c) + t * (snd b - snd c)).
Definition all_shapes (l : list shape) : shape := fun p => exists s, In s l /\ s p.

(** The points of an arc: from the start, [l] radians in its direction, to the end. *)
Definition at_angle (c : pt) (r t : R) : pt := (fst c + r * cos t, snd c + r * sin t).
Definition turning (d : direction) (f t : R) : R := match d with Counterclockwise => f + t | Clockwise => f - t end.
Definition arc_is (a : arc) (r f l : R) : Prop :=
  0 < r /\ 0 < l <= 2 * PI /\ a_start a = at_angle (a_center a) r f /\ a_end a = at_angle (a_center a) r (turning (a_dir a) f l).
Definition on_arc (a : arc) : shape := fun p =>
  exists r f l t, arc_is a r f l /\ 0 <= t <= l /\ p = at_angle (a_center a) r (turning (a_dir a) f t).

(** ** Bounding boxes *)
Definition inside (b : rbox) (p : pt) : Prop := fst (fst b) <= fst p <= snd (fst b) /\ fst (snd b) <= snd p <= snd (snd b).
Definition encloses (b : rbox) (s : shape) : Prop := forall p, s p -> inside b p.
Definition touches (b : rbox) (s : shape) : Prop :=
  (exists p, s p /\ fst p = fst (fst b)) /\ (exists p, s p /\ fst p = snd (fst b)) /\
  (exists p, s p /\ snd p = fst (snd b)) /\ (exists p, s p /\ snd p = snd (snd b)).
Definition bounds (b : rbox) (s : shape) : Prop := encloses b s /\ touches b s.

(** What a contour encloses has contour to its left and right, and below and above it. *)
Definition surrounded (path : shape) : shape := fun p =>
  (exists q r, path q /\ path r /\ fst q <= fst p <= fst r) /\ (exists q r, path q /\ path r /\ snd q <= snd p <= snd r).
(** An arc which stays between two neighbouring axes. *)
Definition in_one_quadrant (a : arc) : Prop :=
  exists r f l j, arc_is a r f l /\ IZR j * (PI / 2) <= f <= IZR j * (PI / 2) + PI / 2 /\
    IZR j * (PI / 2) <= turning (a_dir a) f l <= IZR j * (PI / 2) + PI / 2.
