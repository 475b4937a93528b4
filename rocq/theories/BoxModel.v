(** Bounding boxes of the primitives of gerber/primitives.py, written once for any kind of number
    (real numbers in GeomModel.v and CacheModel.v).
    A box is ((min x, max x), (min y, max y)). *)
From Coq Require Import List.
Import ListNotations.

Section Boxes.
  Context {K : Type} (add sub mul : K -> K -> K) (half : K -> K) (mn mx : K -> K -> K).
  Definition point := (K * K)%type.
  Definition box := ((K * K) * (K * K))%type.

  (** The idiom position -+ half a width, position -+ half a height. *)
  Definition around (p : point) (a b : K) : box :=
    ((sub (fst p) a, add (fst p) a), (sub (snd p) b, add (snd p) b)).

  (** primitives.py:569-577 Circle, 1477-1485 RoundButterfly, 1636-1644 Drill. *)
  Definition circle_box (p : point) (d : K) : box := around p (half d) (half d).
  (** primitives.py:1216-1224 Polygon. *)
  Definition polygon_box (p : point) (r : K) : box := around p r r.
  (** primitives.py:759-765 axis_aligned_width and axis_aligned_height of Rectangle; the same in
      Diamond (854-860), ChamferRectangle (971-979), RoundRectangle (1055-1063), Obround (1156-1164).
      [c] and [s] are _cos_theta and _sin_theta. *)
  Definition aa_width (c s w h : K) : K := add (mul c w) (mul s h).
  Definition aa_height (c s w h : K) : K := add (mul c h) (mul s w).
  (** primitives.py:735-743 Rectangle; the same in Diamond (830-838), ChamferRectangle (925-933),
      RoundRectangle (1045-1053), Obround (1126-1134). *)
  Definition rect_box (p : point) (c s w h : K) : box := around p (half (aa_width c s w h)) (half (aa_height c s w h)).
  (** primitives.py:1505-1513 SquareButterfly; 1591-1597 SquareRoundDonut. *)
  Definition square_box (p : point) (w : K) : box := around p (half w) (half w).
  (** primitives.py:1561-1569 Donut. *)
  Definition donut_box (p : point) (w h : K) : box := around p (half w) (half h).

  (** primitives.py:262-269 Line.bounding_box_no_aperture. *)
  Definition line_box0 (a b : point) : box :=
    ((mn (fst a) (fst b), mx (fst a) (fst b)), (mn (snd a) (snd b), mx (snd a) (snd b))).
  Definition grow (b : box) (dx dy : K) : box :=
    ((sub (fst (fst b)) dx, add (snd (fst b)) dx), (sub (fst (snd b)) dy, add (snd (snd b)) dy)).
  (** primitives.py:246-260 Line.bounding_box for an aperture that is a Circle of diameter [d] ... *)
  Definition line_box_round (a b : point) (d : K) : box := grow (line_box0 a b) (half d) (half d).
  (** ... or has a width and a height. *)
  Definition line_box_rect (a b : point) (w h : K) : box := grow (line_box0 a b) (half w) (half h).
  (** primitives.py:1671-1680 Slot. *)
  Definition slot_box (a b : point) (d : K) : box := grow (line_box0 a b) (half d) (half d).

  (** zip( *points ), min and max of each: Arc (447-458, 506-512); the list is not empty there. *)
  Definition points_box (p : point) (l : list point) : box :=
    ((fold_left mn (map fst l) (fst p), fold_left mx (map fst l) (fst p)),
     (fold_left mn (map snd l) (snd p), fold_left mx (map snd l) (snd p))).
  (** primitives.py:1299-1309 AMGroup, 1374-1385 Outline, 1437-1448 Region: the box around boxes;
      None where zip( * [] ) fails to unpack. *)
  Definition boxes_box (l : list box) : option box :=
    match l with
    | [] => None
    | b :: r => Some ((fold_left mn (map (fun x => fst (fst x)) r) (fst (fst b)), fold_left mx (map (fun x => snd (fst x)) r) (snd (fst b))),
                      (fold_left mn (map (fun x => fst (snd x)) r) (fst (snd b)), fold_left mx (map (fun x => snd (snd x)) r) (snd (snd b))))
    end.
End Boxes.
