(** Model of the shapes of aperture macro primitives: the to_primitive methods of gerber/am_statements.py,
    primitives.AMGroup.__init__ (primitives.py:1259-1274) and primitives.Outline.__init__ (1356-1369).
    Simplification: as in GeomModel, coordinates are exact real numbers. *)
From Verif Require Import PyBase GeomModel HullModel AmModel.
From Coq Require Import Qreals Qcanon.
Import ListNotations.
Open Scope R_scope.
Open Scope list_scope.

(** What is drawn.  A contour is given by its lines, each with its start and its end. *)
Notation contour := (list (pt * pt)).
Inductive shown :=
| ShowCircle (position : pt) (diameter : R)
| ShowPolygon (position : pt) (vertices : Z) (radius rotation : R)
| ShowOutline (lines : contour).

Definition pt_eqb (p q : pt) : bool := HullModel.eqb (fst p) (fst q) && HullModel.eqb (snd p) (snd q).
(** primitives.py:1362-1369 *)
Definition outline_of (lines : contour) : res shown :=
  match lines with
  | [] => Err IndexError
  | l :: _ => if pt_eqb (fst l) (snd (last lines l)) then Ok (ShowOutline lines) else Err ValueError
  end.
(** The points a renderer joins: the end of every line (render/cairo_backend.py:284-287 starts at the first
    start, which is the last end; am_statements.py:371-376 likewise). *)
Definition corners (lines : contour) : list pt := map snd lines.

(** am_statements.py:923-945.  prev_point is not updated in the loop. *)
Definition center_points (c : pt) (w h : R) : list pt :=
  let (x, y) := c in [(x - w / 2, y + h / 2); (x - w / 2, y - h / 2); (x + w / 2, y - h / 2); (x + w / 2, y + h / 2)].
Definition center_line (c : pt) (w h rotation : R) : res shown :=
  let points := center_points c w h in
  let prev := rotate_point (nth 3 points (0, 0)) rotation c in
  outline_of (map (fun p => (prev, rotate_point p rotation c)) points).
(** 312-332.  prev_point is not updated in the loop. *)
Definition vector_line (s e : pt) (w rotation : R) : res shown :=
  do v <- line_vertices s e w w;
  match v with
  | [] => Err IndexError
  | p :: _ => let prev := rotate_point (last v p) rotation (0, 0) in outline_of (map (fun p => (prev, rotate_point p rotation (0, 0))) v)
  end.
(** 435-453; the check in 450 is that of Outline. *)
Fixpoint join_lines (prev : pt) (l : list pt) : contour :=
  match l with [] => [] | p :: r => (prev, p) :: join_lines p r end.
Definition am_outline (start : pt) (points : list pt) (rotation : R) : res shown :=
  outline_of (join_lines (rotate_point start rotation (0, 0)) (map (fun p => rotate_point p rotation (0, 0)) points)).
(** 753-788 _approximate_arc_cw *)
Definition arc_points (start_angle end_angle radius : R) (c : pt) : list pt :=
  map (fun i => let a := start_angle + (end_angle - start_angle) / 10 * INR i in (fst c + cos a * radius, snd c + sin a * radius)) (seq 0 11).
(** 790-830: math.asin raises outside -1..1, and a division by zero too.  prev_point is not updated in the loop. *)
Definition py_div (x y : R) : res R := if HullModel.eqb y 0 then Err ZeroDivisionError else Ok (x / y).
Definition py_asin (x : R) : res R := if GeomModel.leb (-1) x && GeomModel.leb x 1 then Ok (asin x) else Err ValueError.
Definition thermal_points (p : pt) (inner outer rotation ia oa : R) : list pt :=
  let rad := radians rotation in
  let points := arc_points (ia + rad) (PI / 2 - ia + rad) inner p ++ rev (arc_points (oa + rad) (PI / 2 - oa + rad) outer p) in
  points ++ [nth 0 points (0, 0)].
Definition thermal (p : pt) (outer_diameter inner_diameter gap rotation : R) : res (list shown) :=
  let inner := inner_diameter / 2 in
  let outer := outer_diameter / 2 in
  do qi <- py_div (gap / 2) inner; do ia <- py_asin qi;
  do qo <- py_div (gap / 2) outer; do oa <- py_asin qo;
  let points := thermal_points p inner outer rotation ia oa in
  mapM (fun q => let prev := rotate_point (nth 0 points (0, 0)) q p in outline_of (map (fun x => (prev, rotate_point x q p)) (tl points))) [0; 90; 180; 270].

Definition real (q : Qc) : R := Q2R (this q).
Definition real_pt (p : Qc * Qc) : pt := (real (fst p), real (snd p)).
(** The to_primitive methods, with whether the shape is dark (77-81: exposure is not 'off'; that of moires and
    thermals is 'on').  None, which AMGroup drops, is the empty list: comments (141-145), moires (663-665), and what
    has no method of its own (83-86: lower left lines and unsupported primitives). *)
Definition single (on : bool) (r : res shown) : res (list (bool * shown)) := do o <- r; Ok [(on, o)].
Definition to_primitive (p : amprim) : res (list (bool * shown)) :=
  match p with
  | ACircle on d p => single on (Ok (ShowCircle (real_pt p) (real d)))                       (* 220-221 *)
  | AVector _ on w s e r => single on (vector_line (real_pt s) (real_pt e) (real w) (real r))
  | AOutline on s l r => single on (am_outline (real_pt s) (map real_pt l) (real r))
  | APolygon on n p d r => single on (Ok (ShowPolygon (real_pt p) n (real d / 2) (real r)))  (* 549-550 *)
  | AThermal p o i g r => do l <- thermal (real_pt p) (real o) (real i) (real g) (real r); Ok (map (pair true) l)
  | ACenter on w h c r => single on (center_line (real_pt c) (real w) (real h) (real r))
  | AMoire _ _ _ _ _ _ _ _ | ALower _ _ _ _ _ | AComment _ | AUnsupported _ => Ok []
  end.
(** primitives.py:1259-1276 *)
Definition group_shapes (prims : list amprim) : res (list (bool * shown)) := do l <- mapM to_primitive prims; Ok (List.concat l).
