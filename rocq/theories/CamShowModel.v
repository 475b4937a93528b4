(** CamFile.render (gerber/cam.py:262-286): images of single files, as large as what is in them. *)
From Verif Require Import PyBase QcLib GeomModel GeomSpec HullModel CairoModel MacroGeomModel ShowModel.
From Verif Require GerberEval GerberText ExcellonModel ExcellonFile.
Import ListNotations.
Open Scope R_scope.
Open Scope list_scope.

(** ** Gerber files *)
(** primitives.py:1299-1309 AMGroup.bounding_box: the box of the boxes; zip( * [] ) cannot be unpacked. *)
Definition item_box (i : item) : res rbox :=
  match i with
  | Single d => Ok (bbox d)
  | Group _ l => match boxes_box (map bbox l) with Some b => Ok b | None => Err ValueError end
  end.
(** The bounding_box of a primitive, from what [view] (ShowModel.v) has for it.  A line drawn with an obround has the box
    of primitives.py:245-260 although nothing is drawn for it.  Simplification: errors which come when the primitive is
    drawn (a polygon without sides) come here already. *)
Definition prim_box (h : GerberEval.store) (p : GerberEval.prim) : res rbox :=
  match p with
  | GerberEval.PStroke (GerberEval.SgLine a b (Some ap) _ _) =>
      match GerberEval.fetch h ap with
      | Some (GerberEval.mkObj (GerberEval.ShObround w hh _ _ _) _ _ _) => Ok (line_box_rect (real_pt a) (real_pt b) (real w) (real hh))
      | _ => do i <- view h p; item_box i
      end
  | _ => do i <- view h p; item_box i
  end.
(** rs274x.py:134-148 GerberFile.bounding_box (GerberEval.v has it for rational boxes) *)
Definition widened (b x : rbox) : rbox :=
  ((Rmin (fst (fst x)) (fst (fst b)), Rmax (snd (fst x)) (snd (fst b))), (Rmin (fst (snd x)) (fst (snd b)), Rmax (snd (snd x)) (snd (snd b)))).
Definition whole_box (l : list rbox) : rbox := fold_left widened l ((1000000, -1000000), (1000000, -1000000)).
(** cam.py:276-280: the surface is made for the box; the layer is not mirrored (cairo_backend.py:533). *)
Definition whole_context (s : R) (inv : bool) (h : GerberEval.store) (l : list GerberEval.prim) : res context :=
  do bs <- mapM (prim_box h) l; Ok (set_bounds s (whole_box bs) inv false).
(** cam.py:281-283, on a context which is at [s] pixels per unit *)
Definition render_prims (fill : list curve -> shape) (s : R) (inv : bool) (h : GerberEval.store) (l : list GerberEval.prim) : res shape :=
  do c <- whole_context s inv h l; do items <- mapM (view h) l; render_layer fill c items.
(** The size of the image: cairo_backend.py:68, 536 *)
Definition whole_size (fc : GerberEval.centre_fun) (s : R) (l : list GerberText.stmt) : res pt :=
  do r <- GerberEval.evaluate_all fc GerberEval.g_init l;
  do c <- whole_context s false (GerberEval.g_store (fst r)) (GerberEval.g_prims (fst r)); Ok (size_px c).
(** From the statements (rs274x.py:267-277) to the image *)
Definition render_whole (fill : list curve -> shape) (fc : GerberEval.centre_fun) (s : R) (inv : bool) (l : list GerberText.stmt) : res shape :=
  do r <- GerberEval.evaluate_all fc GerberEval.g_init l;
  render_prims fill s inv (GerberEval.g_store (fst r)) (GerberEval.g_prims (fst r)).

(** ** Drill files *)
(** excellon.py:207-222 ExcellonFile.primitives; primitives.py:1602-1608, 1655-1663: always dark; 1636-1644, 1671-1680: the
    boxes; cairo_backend.py:492-494: a drill is drawn as a circle, and it has no attributes for holes. *)
Definition drill_item (s : list ExcellonModel.tool) (h : ExcellonModel.hit) : res item :=
  do t <- ExcellonFile.tool_at s (ExcellonFile.hit_tool h);
  match ExcellonModel.t_diam t with
  | None => Err TypeError
  | Some d =>
      match h with
      | ExcellonModel.Hit _ p => Ok (Single (mkDrawn true (circle_box (real_pt p) (real d)) (PCircle (real_pt p) (real d) 0 0 0 0)))
      | ExcellonModel.Slot _ (Some a, Some b) (Some x, Some y) _ =>
          Ok (Single (mkDrawn true (slot_box (real_pt (a, b)) (real_pt (x, y)) (real d)) (PSlot (real_pt (a, b)) (real_pt (x, y)) (real d))))
      | ExcellonModel.Slot _ _ _ _ => Err TypeError
      end
  end.
(** cam.py:262-283 with excellon.py:224-234 *)
Definition render_drills (fill : list curve -> shape) (s : R) (inv : bool) (f : ExcellonModel.xfile) : res shape :=
  do b <- ExcellonFile.bounding_box f;
  do items <- mapM (drill_item (ExcellonModel.xf_store f)) (ExcellonModel.xf_hits f);
  render_layer fill (set_bounds s (real_box b) inv false) items.
(** The same in a layer of a board, drawn with the bounds [b] (cairo_backend.py:79-94, 193-198) *)
Definition render_drill_layer (fill : list curve -> shape) (s : R) (b : rbox) (inv mir : bool) (f : ExcellonModel.xfile) : res shape :=
  do items <- mapM (drill_item (ExcellonModel.xf_store f)) (ExcellonModel.xf_hits f);
  render_layer fill (set_bounds s b inv mir) items.
(** ExcellonFile has no bounds of its own: cam.py:244-248 returns None, and so does layers.py:231-236. *)
Definition drill_bounds (f : ExcellonModel.xfile) : option rbox := None.
