(** From the primitives of a Gerber file to the renderer: which objects GerberCairoContext is given
    when it renders the primitives made by GerberParser (rs274x.py, primitives.py, cairo_backend.py).
    Simplifications: python's floats are the exact rational numbers of GerberEval.v, taken as real
    numbers for the renderer (CairoModel.v).  Arcs drawn with pens that are not circles and lines
    drawn with macros are not modelled: NotImplementedError stands for them here, which this code never
    raises.  The primitives of a macro are made here, from the values GerberEval.v has for them; the code
    makes them when the aperture is defined (gerber_statements.py:427-454), so that their errors come earlier. *)
From Verif Require Import PyBase QcLib GeomModel GeomSpec HullModel CairoModel AmModel MacroGeomModel.
From Verif Require GerberEval GerberEvalSpec GerberText.
Import ListNotations.
Open Scope R_scope.
Open Scope list_scope.

Definition is_dark (p : GerberText.polarity) : bool := match p with GerberText.Dark => true | GerberText.Clear => false end.
Definition direction_of (d : GerberEval.direction) : direction :=
  match d with GerberEval.Clockwise => Clockwise | GerberEval.Counterclockwise => Counterclockwise end.
Definition quadrants_of (q : GerberText.quadrant) : quadrants :=
  match q with GerberText.SingleQ => SingleQuadrant | GerberText.MultiQ => MultiQuadrant end.
Definition arc_of (a b c : GerberEval.point) (d : GerberEval.direction) (q : GerberText.quadrant) : arc :=
  mkArc (real_pt a) (real_pt b) (real_pt c) (direction_of d) (quadrants_of q).

(** primitives.py:245-260 Line.bounding_box, 270-297 Line.vertices and cairo_backend.py:211-226.
    The box comes first (209): a Polygon has no width.  An obround has no corners, so nothing is
    drawn (220): a group without parts. *)
Definition view_line (dark : bool) (a b : pt) (o : GerberEval.obj) : res item :=
  match GerberEval.o_shape o with
  | GerberEval.ShCircle d _ _ _ => Ok (Single (mkDrawn dark (line_box_round a b (real d)) (PLine a b (real d))))
  | GerberEval.ShRect w h _ _ _ =>
      do vs <- line_vertices a b (real w) (real h);
      Ok (Single (mkDrawn dark (line_box_rect a b (real w) (real h)) (PHull vs)))
  | GerberEval.ShObround _ _ _ _ _ => Ok (Group dark [])
  | GerberEval.ShPolygon _ _ _ _ _ _ => Err AttributeError
  | GerberEval.ShMacro _ => Err NotImplementedError
  end.
(** primitives.py:408-461 Arc.bounding_box and cairo_backend.py:229-260 *)
Definition view_arc (dark : bool) (a : arc) (o : GerberEval.obj) : res item :=
  match GerberEval.o_shape o with
  | GerberEval.ShCircle d _ _ _ => Ok (Single (mkDrawn dark (arc_box a (Round (real d / 2))) (PArc a (real d))))
  | _ => Err NotImplementedError
  end.
(** A line or an arc of a region.  Without a centre (rs274x.py:739-760 finds none) 289 fails. *)
Definition view_seg (s : GerberEval.seg) : res seg :=
  match s with
  | GerberEval.SgLine a b _ _ _ => Ok (SLine (real_pt a) (real_pt b))
  | GerberEval.SgArc a b (Some c) d _ q _ _ => Ok (SArc (arc_of a b c d q))
  | GerberEval.SgArc _ _ None _ _ _ _ _ => Err TypeError
  end.
(** bounding_box_no_aperture: primitives.py:262-269, 463-513 *)
Definition seg_box (s : seg) : rbox := match s with SLine a b => line_box0 a b | SArc a => arc_box0 a end.
(** primitives.py:1437-1448 Region.bounding_box; zip( * [] ) cannot be unpacked. *)
Definition view_region (dark : bool) (l : list GerberEval.seg) : res item :=
  do segs <- mapM view_seg l;
  match boxes_box (map seg_box segs) with
  | Some b => Ok (Single (mkDrawn dark b (PRegion segs)))
  | None => Err ValueError
  end.
(** primitives.py:1229-1240 Polygon.vertices; without sides 360.0 / 0 fails (1233), and a negative
    number of sides gives no points. *)
Definition view_polygon (dark : bool) (c : pt) (n : Z) (r rotation hd hw hh : R) : res drawn :=
  if (n =? 0)%Z then Err ZeroDivisionError
  else Ok (mkDrawn dark (polygon_box c r) (PPolygon c (map (polygon_vertex c (Z.to_nat n) r rotation) (seq 0 (Z.to_nat n))) rotation hd hw hh)).
(** A part of a macro flashed at [c] (primitives.py:1321-1338: the parts are moved there).  Outlines are
    rendered as regions (render.py:165-166); the pen of their lines is a circle of diameter 0
    (am_statements.py:323, 446, 809, 936) and their box is 1375-1386. *)
Definition shift (c p : pt) : pt := (fst p + fst c, snd p + snd c).
Definition view_part (c : pt) (x : bool * shown) : res drawn :=
  let (on, s) := x in
  match s with
  | ShowCircle p d => Ok (mkDrawn on (circle_box (shift c p) d) (PCircle (shift c p) d 0 0 0 0))
  | ShowPolygon p n r rotation => view_polygon on (shift c p) n r rotation 0 0 0
  | ShowOutline lines =>
      let lines := map (fun l => (shift c (fst l), shift c (snd l))) lines in
      match boxes_box (map (fun l => line_box_round (fst l) (snd l) 0) lines) with
      | Some b => Ok (mkDrawn on b (PRegion (map (fun l => SLine (fst l) (snd l)) lines)))
      | None => Err ValueError
      end
  end.
(** cairo_backend.py:514-516; gerber_statements.py:427-454 and primitives.py:1259-1276 *)
Definition view_macro (dark : bool) (c : pt) (ps : list (Z * list MacroModel.mval)) : res item :=
  do prims <- mapM (fun y => from_gerber (yield_text y)) ps;
  do shapes <- group_shapes prims;
  do ds <- mapM (view_part c) shapes;
  Ok (Group dark ds).
(** primitives.py:569-577, 735-743, 1126-1134, 1216-1224: boxes of flashed apertures.  A rotation is
    only given to polygons (rs274x.py:512-586).  A flash has a position. *)
Definition view_flash (o : GerberEval.obj) : res item :=
  let dark := is_dark (GerberEval.o_pol o) in
  match GerberEval.o_pos o with
  | None => Err TypeError
  | Some p =>
      let c := real_pt p in
      match GerberEval.o_shape o with
      | GerberEval.ShCircle d hd hw hh => Ok (Single (mkDrawn dark (circle_box c (real d)) (PCircle c (real d) 0 (real hd) (real hw) (real hh))))
      | GerberEval.ShRect w h hd hw hh => Ok (Single (mkDrawn dark (rect_box c 0 (real w) (real h)) (PRect c (real w) (real h) 0 (real hd) (real hw) (real hh))))
      | GerberEval.ShObround w h hd hw hh => Ok (Single (mkDrawn dark (rect_box c 0 (real w) (real h)) (PObround c (real w) (real h) 0 (real hd) (real hw) (real hh))))
      | GerberEval.ShPolygon n r rot hd hw hh => do d <- view_polygon dark c n (real r) (real rot) (real hd) (real hw) (real hh); Ok (Single d)
      | GerberEval.ShMacro ps => view_macro dark c ps
      end
  end.
(** render.py:138-170 render: the kind of a primitive; the aperture of a line is an object of the store. *)
Definition view (h : GerberEval.store) (p : GerberEval.prim) : res item :=
  match p with
  | GerberEval.PStroke (GerberEval.SgLine a b (Some ap) pol _) =>
      match GerberEval.fetch h ap with Some o => view_line (is_dark pol) (real_pt a) (real_pt b) o | None => Err NotImplementedError end
  | GerberEval.PStroke (GerberEval.SgArc a b (Some c) d (Some ap) q pol _) =>
      match GerberEval.fetch h ap with Some o => view_arc (is_dark pol) (arc_of a b c d q) o | None => Err NotImplementedError end
  | GerberEval.PStroke (GerberEval.SgArc _ _ None _ (Some _) _ _ _) => Err TypeError
  | GerberEval.PStroke _ => Err NotImplementedError
  | GerberEval.PRegion l pol _ => view_region (is_dark pol) l
  | GerberEval.PFlash ap => match GerberEval.fetch h ap with Some o => view_flash o | None => Err NotImplementedError end
  end.
(** rs274x.py:118-132 GerberFile.bounds, which layers.py:231-236 hands to the renderer. *)
Definition real_box (b : GerberEval.box) : rbox :=
  ((real (fst (fst b)), real (snd (fst b))), (real (fst (snd b)), real (snd (snd b)))).
(** cairo_backend.py:193-198, 533-549: all primitives of the file, in order, drawn at [s] pixels per
    unit on a surface for the bounds [b]. *)
Definition render_file (fill : list curve -> shape) (s : R) (b : rbox) (inv mir : bool) (h : GerberEval.store) (l : list GerberEval.prim) : res shape :=
  do items <- mapM (view h) l; render_layer fill (set_bounds s b inv mir) items.
(** From the statements (rs274x.py:267-277) to the image of the layer, at the file's own bounds
    (cairo_backend.py:79-94, layers.py:231-236). *)
Definition render_statements (fill : list curve -> shape) (fc : GerberEval.centre_fun) (s : R) (inv mir : bool) (l : list GerberText.stmt) : res shape :=
  do r <- GerberEval.evaluate_all fc GerberEval.g_init l;
  let (st, l') := r in
  render_file fill s (real_box (GerberEval.file_bounds l')) inv mir (GerberEval.g_store st) (GerberEval.g_prims st).
