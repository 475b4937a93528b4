(** Model of the image renderer: gerber/render/cairo_backend.py.

    The library cairo itself is not part of the project: the first half of this file says what its
    calls draw, as sets of points.  A surface is the set of the points which are painted; surfaces are
    vector graphics (SVGSurface), so there are no pixels to round to, and one unit is a "pixel" here.
    Simplifications: python's floats are exact real numbers; colours and transparency, the
    background (paint_background, flatten) and the files written (dump) are left out; what is inside a
    contour is a parameter [fill] of the model, as cairo decides it (the winding rule). *)
From Coq Require Import Bool.
From Verif Require Import PyBase GeomModel GeomSpec.
Import ListNotations.
Open Scope R_scope.
Open Scope list_scope.
Open Scope bool_scope.

(** * Cairo *)
(** A piece of a path, followed from 0 to 1. *)
Definition curve := R -> pt.
Definition straight (a b : pt) : curve := fun t => (fst a + t * (fst b - fst a), snd a + t * (snd b - snd a)).
Definition curved (c : pt) (r from sweep : R) : curve := fun t => at_angle c r (from + t * sweep).
(** cairo_arc: the second angle is increased by full turns until it is not below the first. *)
Definition arc_turn (a1 a2 : R) : R := if Rle_dec a1 a2 then a2 - a1 else rmod (a2 - a1) (2 * PI).
(** cairo_arc_negative: it is decreased by full turns until it is not above the first. *)
Definition arc_negative_turn (a1 a2 : R) : R := if Rle_dec a2 a1 then a1 - a2 else rmod (a1 - a2) (2 * PI).
Inductive cmd := LineTo (p : pt) | ArcTo (c : pt) (r a1 a2 : R) | ArcNegative (c : pt) (r a1 a2 : R).
(** The arc calls draw a line from the current point to the start of the arc. *)
Fixpoint path (cur : pt) (l : list cmd) : list curve * pt :=
  match l with
  | [] => ([], cur)
  | LineTo p :: l => let (cs, e) := path p l in (straight cur p :: cs, e)
  | ArcTo c r a1 a2 :: l =>
      let s := arc_turn a1 a2 in
      let (cs, e) := path (at_angle c r (a1 + s)) l in (straight cur (at_angle c r a1) :: curved c r a1 s :: cs, e)
  | ArcNegative c r a1 a2 :: l =>
      let s := arc_negative_turn a1 a2 in
      let (cs, e) := path (at_angle c r (a1 - s)) l in (straight cur (at_angle c r a1) :: curved c r a1 (- s) :: cs, e)
  end.
(** fill() closes the path. *)
Definition closed (start : pt) (l : list cmd) : list curve := let (cs, e) := path start l in cs ++ [straight e start].
Definition traced (l : list curve) : shape := fun p => exists f t, In f l /\ 0 <= t <= 1 /\ p = f t.
(** stroke() with round caps *)
Definition c_stroke (width : R) (l : list curve) : shape := fun p => 0 < width /\ stroke (traced l) (disc (0, 0) (width / 2)) p.
(** arc(x, y, r, 0, 2 pi); fill() *)
Definition c_disc (c : pt) (r : R) : shape := fun p => 0 < r /\ disc c r p.
(** rectangle(x, y, width, height); fill() or clip() *)
Definition c_rectangle (p : pt) (w h : R) : shape := fun q => fst p <= fst q <= fst p + w /\ snd p <= snd q <= snd p + h.
Inductive operator := Over | Clear.
Definition draw (o : operator) (s : shape) (surface : shape) : shape := fun p =>
  match o with Over => surface p \/ s p | Clear => surface p /\ ~ s p end.
Definition drawing (l : list (operator * shape)) : shape := fold_left (fun s x => draw (fst x) (snd x) s) l (fun _ => False).

(** * The renderer *)
(** math.floor and math.ceil *)
Definition floor (x : R) : R := IZR (Int_part x).
Definition ceil (x : R) : R := - floor (- x).

(** 39-52, 194: scale, origin_in_inch, size_in_inch, settings.invert and settings.mirror.  The two
    scales are always the same (41, 121). *)
Record context := mkContext { scale : R; origin : pt; size : pt; invert : bool; mirror : bool }.
(** 615-616 scale_point *)
Definition scale_point (c : context) (p : pt) : pt := (fst p * scale c, snd p * scale c).
(** 54-62 *)
Definition origin_px (c : context) : pt := scale_point c (origin c).
Definition size_px (c : context) : pt := scale_point c (size c).
(** 64-77 set_bounds, on a cleared context *)
Definition set_bounds (s : R) (b : rbox) (inv mir : bool) : context :=
  mkContext s (fst (fst b), fst (snd b)) (Rabs (snd (fst b) - fst (fst b)), Rabs (snd (snd b) - fst (snd b))) inv mir.

(** A line or an arc of the contour of a region *)
Inductive seg := SLine (a b : pt) | SArc (a : arc).
(** The primitives.  Simplifications: a line with an aperture which is not a circle is given by its
    [vertices], a polygon too; arcs have circular apertures; a missing hole is 0 (primitives.py:526
    has None for circles).  A drill is a circle without a hole (492-494). *)
Inductive prim :=
| PLine (a b : pt) (diameter : R)
| PHull (vertices : list pt)
| PArc (a : arc) (diameter : R)
| PRegion (segs : list seg)
| PCircle (position : pt) (diameter rotation hole hole_w hole_h : R)
| PRect (position : pt) (w h rotation hole hole_w hole_h : R)
| PObround (position : pt) (w h rotation hole hole_w hole_h : R)
| PPolygon (position : pt) (vertices : list pt) (rotation hole hole_w hole_h : R)
| PSlot (a b : pt) (diameter : R).
(** What is drawn: [dark] is level_polarity == 'dark', [bbox] the bounding_box. *)
Record drawn := mkDrawn { dark : bool; bbox : rbox; what : prim }.
(** Macros (primitives.py:1256-1354 AMGroup) have primitives and their own polarity. *)
Inductive item := Single (d : drawn) | Group (dark : bool) (l : list drawn).

Section Render.
Variable fill : list curve -> shape.

(** move_to the last point; line_to each point; fill: 221-226, 337-340, 381-383, 452-455 *)
Definition polygon_path (points : list pt) : res shape :=
  match points with
  | [] => Err IndexError
  | p :: _ => Ok (fill (closed (last points p) (map LineTo points)))
  end.
(** 326-340, 374-383, 422-435, 475-488: the corners of a rectangular hole *)
Definition hole_points (c : context) (center : pt) (w h rotation : R) : list pt :=
  let w := w * scale c in let h := h * scale c in
  let ll := GeomModel.rotate_point (fst center - w / 2, snd center - h / 2) rotation center in
  let lr := GeomModel.rotate_point (fst center + w / 2, snd center - h / 2) rotation center in
  let ul := GeomModel.rotate_point (fst center - w / 2, snd center + h / 2) rotation center in
  let ur := GeomModel.rotate_point (fst center + w / 2, snd center + h / 2) rotation center in
  [ll; lr; ur; ul].
(** 322-325, 361-364 ... *)
Definition hole_operator (c : context) (dark : bool) : operator := if dark && negb (invert c) then Clear else Over.
(** The holes: [round] and [rect] are the operators used for the round and for the rectangular one. *)
Definition holes (c : context) (position : pt) (rotation hole w h : R) (round rect : operator) : list (operator * shape) :=
  let center := scale_point c position in
  (if Rlt_dec 0 hole then [(round, c_disc center (hole / 2 * scale c))] else []) ++
  (if Rlt_dec 0 w then if Rlt_dec 0 h then
     let ps := hole_points c center w h rotation in
     [(rect, fill (closed (last ps center) (map LineTo ps)))] else [] else []).

(** 230-260: the path of an arc.  The [move_to] after it adds nothing to what is stroked. *)
Definition arc_path (c : context) (a : arc) : list curve :=
  let center := scale_point c (a_center a) in
  let r := scale c * radius a in
  let angle1 := theta0 a in
  let angle2 := if Req_EM_T angle1 (theta1 a)
                then match a_quad a with SingleQuadrant => theta1 a | MultiQuadrant => theta1 a - 1 / 1000000000 end
                else theta1 a in
  fst (path (scale_point c (a_start a))
         [match a_dir a with Counterclockwise => ArcTo center r angle1 angle2 | Clockwise => ArcNegative center r angle1 angle2 end]).
(** 285-298: a piece of the contour of a region *)
Definition seg_cmd (c : context) (s : seg) : cmd :=
  match s with
  | SLine _ b => LineTo (scale_point c b)
  | SArc a =>
      let center := scale_point c (a_center a) in
      let r := scale c * radius a in
      match a_dir a with
      | Counterclockwise => ArcTo center r (start_angle a) (end_angle a)
      | Clockwise => ArcNegative center r (start_angle a) (end_angle a)
      end
  end.
Definition seg_start (s : seg) : pt := match s with SLine a _ => a | SArc a => a_start a end.

(** primitives.py:730-733 lower_left, 759-765 axis_aligned_width of a rectangle *)
Definition lower_left (p : pt) (w h rotation : R) : pt :=
  let cs := cos (radians rotation) in let sn := sin (radians rotation) in
  (fst p - (cs * w + sn * h) / 2, snd p - (cs * h + sn * w) / 2).
(** 344-356, 403-408 *)
Definition rectangle_path (c : context) (p : pt) (w h rotation : R) : shape :=
  c_rectangle (scale_point c (lower_left p w h rotation)) (Rabs (w * scale c)) (Rabs (h * scale c)).
(** primitives.py:1136-1154 Obround.subshapes: the two circles and the rectangle *)
Definition subshapes (p : pt) (w h : R) : (pt * R) * (pt * R) * (pt * (R * R)) :=
  if Rlt_dec w h
  then ((fst p, snd p + (h - w) / 2, w), (fst p, snd p - (h - w) / 2, w), (p, (w, h - w)))
  else ((fst p - (h - w) / 2, snd p, h), (fst p + (h - w) / 2, snd p, h), (p, (w - h, h))).

(** What a primitive draws on its mask (_new_mask, 176-191), in the coordinates of the mask: 202-512.
    The operator is that of the mask's context. *)
Definition mask (c : context) (dark : bool) (p : prim) : res (list (operator * shape)) :=
  match p with
  (* 211-218 *)
  | PLine a b d => Ok [(Over, c_stroke (d * scale c) (fst (path (scale_point c a) [LineTo (scale_point c b)])))]
  (* 220-226 *)
  | PHull vs => do s <- polygon_path (map (scale_point c) vs); Ok [(Over, s)]
  (* 229-260 *)
  | PArc a d => let w := if Req_EM_T d 0 then 1 / 1000 else d in Ok [(Over, c_stroke (w * scale c) (arc_path c a))]
  (* 276-299 *)
  | PRegion segs =>
      match segs with
      | [] => Err IndexError
      | s :: _ => Ok [(Over, fill (closed (scale_point c (seg_start s)) (map (seg_cmd c) segs)))]
      end
  (* 302-340 *)
  | PCircle q d rot hd hw hh =>
      Ok ((Over, c_disc (scale_point c q) (d / 2 * scale c)) :: holes c q rot hd hw hh Clear (hole_operator c dark))
  (* 343-383 *)
  | PRect q w h rot hd hw hh =>
      Ok ((Over, rectangle_path c q w h rot) :: holes c q rot hd hw hh (hole_operator c dark) (hole_operator c dark))
  (* 386-435: the polarity looked at for the rectangular hole is that of the rectangle in the middle *)
  | PObround q w h rot hd hw hh =>
      let '(c1, c2, (m, (rw, rh))) := subshapes q w h in
      Ok ([(Over, c_disc (scale_point c (fst c1)) (snd c1 / 2 * scale c));
           (Over, c_disc (scale_point c (fst c2)) (snd c2 / 2 * scale c));
           (Over, rectangle_path c m rw rh 0)] ++ holes c q rot hd hw hh Clear (hole_operator c true))
  (* 439-488 *)
  | PPolygon q vs rot hd hw hh =>
      do s <- polygon_path (map (scale_point c) vs);
      Ok ((Over, s) :: holes c q rot hd hw hh (hole_operator c dark) (hole_operator c dark))
  (* 496-511 *)
  | PSlot a b d => Ok [(Over, c_stroke (d * scale c) (fst (path (scale_point c a) [LineTo (scale_point c b)])))]
  end.

(** The points of a surface: 180-181, 536 *)
Definition on_surface (c : context) (q : pt) : Prop := 0 <= fst q <= fst (size_px c) /\ 0 <= snd q <= snd (size_px c).
(** 71-73, 543-547: the matrix of the layer's context *)
Definition matrix (c : context) (u : pt) : pt :=
  ((if mirror c then - fst u + (fst (origin_px c) + fst (size_px c)) else fst u + - fst (origin_px c)), - snd u + snd (size_px c)).
(** 583-607 _clip_primitive *)
Definition clip (c : context) (b : rbox) : shape :=
  let xmin := floor (scale c * fst (fst b)) in
  let xmax := ceil (scale c * snd (fst b)) in
  let ymin := floor (scale c * fst (snd b) - ceil (snd (origin_px c))) in
  let ymax := floor (scale c * snd (snd b) - floor (snd (origin_px c))) in
  c_rectangle (xmin, ymin) (Rabs (xmax - xmin)) (Rabs (ymax - ymin)).
(** 183, 227: the points of the layer which a mask covers.  [v] is a point in the coordinates of the
    mask, [m] the point of its surface and [u] the point in the coordinates of the layer: the mask is
    placed at (origin_in_pixels[0], 0). *)
Definition masked (c : context) (b : rbox) (content : shape) : shape := fun q =>
  on_surface c q /\ exists v,
    let m := (fst v - fst (origin_px c), snd v - snd (origin_px c)) in
    let u := (fst m + fst (origin_px c), snd m) in
    content v /\ on_surface c m /\ clip c b u /\ matrix c u = q.
(** 205-208 ...: the operator of the layer's context *)
Definition layer_operator (c : context) (dark : bool) : operator := if negb (invert c) && dark then Over else Clear.
Definition render (c : context) (d : drawn) (layer : shape) : res shape :=
  do l <- mask c (dark d) (what d);
  Ok (draw (layer_operator c (dark d)) (masked c (bbox d) (drawing l)) layer).
(** 514-516: the parts of a macro are rendered one by one; its own polarity is not looked at. *)
Definition parts (i : item) : list drawn := match i with Single d => [d] | Group _ l => l end.
Fixpoint render_all (c : context) (l : list drawn) (layer : shape) : res shape :=
  match l with [] => Ok layer | d :: l => do layer <- render c d layer; render_all c l layer end.
(** 193-198, 533-549: an inverted layer is painted before the first primitive. *)
Definition render_layer (c : context) (l : list item) : res shape :=
  render_all c (flat_map parts l) (fun q => invert c = true /\ on_surface c q).
End Render.

(** 102-131 render_layers: the context of all layers, given their bounds. *)
Definition widen (r : R * R) (b : R * R) : R * R := (Rmin (fst r) (fst b), Rmax (snd r) (snd b)).
(** 107-116 *)
Definition ranges (l : list (option rbox)) : rbox :=
  fold_left (fun r b => match b with Some b => (widen (fst r) (fst b), widen (snd r) (snd b)) | None => r end) l
    ((10000, -10000), (10000, -10000)).
(** 117-121 *)
Definition layers_scale (l : list (option rbox)) (max_width max_height : R) : res R :=
  let r := ranges l in
  let width := snd (fst r) - fst (fst r) in
  let height := snd (snd r) - fst (snd r) in
  if Req_EM_T width 0 then Err ZeroDivisionError
  else if Req_EM_T height 0 then Err ZeroDivisionError
  else Ok (floor (Rmin (max_width / width) (max_height / height))).
(** 86-94, 127-130: the bounds of the first layer are set; they stay for the other layers.  Nothing
    is drawn without layers: the dump at the end fails (150). *)
Definition layers_context (l : list (option rbox)) (max_width max_height : R) (inv mir : bool) : res context :=
  do s <- layers_scale l max_width max_height;
  match l with
  | [] => Err AttributeError
  | None :: _ => Err TypeError
  | Some b :: _ => Ok (set_bounds s b inv mir)
  end.
