(** Model of the corners of flashed primitives: vertices and segments in gerber/primitives.py. *)
From Verif Require Import PyBase GeomModel.
From Coq Require Import List Reals.
Import ListNotations.
Open Scope R_scope.

(** 753-755, 848-850, 966-968: the list comprehension which turns the vertices; cos and sin are those of the
    rotation setter (86-91). *)
Definition turn_vertices (rotation : R) (l : list pt) : list pt :=
  map (fun v => (fst v * cos (radians rotation) - snd v * sin (radians rotation),
                 fst v * sin (radians rotation) + snd v * cos (radians rotation))) l.

(** 745-756 Rectangle.vertices: ll, ul, ur, lr *)
Definition rectangle_vertices (p : pt) (w h rotation : R) : list pt :=
  let dw := w / 2 in let dh := h / 2 in
  turn_vertices rotation
    [(fst p - dw, snd p - dh); (fst p - dw, snd p + dh); (fst p + dw, snd p + dh); (fst p + dw, snd p - dh)].

(** 840-851 Diamond.vertices: top, right, bottom, left *)
Definition diamond_vertices (p : pt) (w h rotation : R) : list pt :=
  let dw := w / 2 in let dh := h / 2 in
  turn_vertices rotation
    [(fst p, snd p + dh); (fst p + dw, snd p); (fst p, snd p - dh); (fst p - dw, snd p)].

(** 935-969 ChamferRectangle.vertices.  [chamfer_corner]: the branches on the index (948-962);
    [zip] stops at the shorter list. *)
Definition chamfer_corner (chamfer : R) (idx : nat) (corner : pt) (chamfered : bool) : list pt :=
  let (x, y) := corner in
  if chamfered then
    match idx with
    | 0%nat => [(x - chamfer, y); (x, y - chamfer)]
    | 1%nat => [(x + chamfer, y); (x, y - chamfer)]
    | 2%nat => [(x + chamfer, y); (x, y + chamfer)]
    | 3%nat => [(x - chamfer, y); (x, y + chamfer)]
    | _ => []
    end
  else [corner].
Fixpoint chamfer_corners (chamfer : R) (idx : nat) (l : list (pt * bool)) : list pt :=
  match l with
  | [] => []
  | (corner, chamfered) :: l' => chamfer_corner chamfer idx corner chamfered ++ chamfer_corners chamfer (S idx) l'
  end.
(** 939-945: order is UR, UL, LL, LR *)
Definition rect_corners (p : pt) (w h : R) : list pt :=
  let dw := w / 2 in let dh := h / 2 in
  [(fst p + dw, snd p + dh); (fst p - dw, snd p + dh); (fst p - dw, snd p - dh); (fst p + dw, snd p - dh)].
Definition chamfer_vertices (p : pt) (w h chamfer : R) (corners : list bool) (rotation : R) : list pt :=
  turn_vertices rotation (chamfer_corners chamfer 0 (combine (rect_corners p w h) corners)).

(** itertools.combinations(l, 2) *)
Fixpoint combinations2 {A} (l : list A) : list (A * A) :=
  match l with [] => [] | x :: r => map (pair x) r ++ combinations2 r end.
(** 97-103 segments: None without vertices *)
Definition segments (vertices : option (list pt)) : option (list (pt * pt)) :=
  match vertices with
  | Some (v :: l) => Some (combinations2 (v :: l))
  | _ => None
  end.
(** 1392-1402 Outline.vertices: an outline has no attribute sides. *)
Definition outline_vertices {A} (primitives : list A) : res (list pt) := Err AttributeError.
