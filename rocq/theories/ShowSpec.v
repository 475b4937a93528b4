(** What the image of a Gerber file is expected to show, in terms of the marks the file makes
    (GerberEvalSpec.v): no primitives, boxes or masks. *)
From Verif Require Import PyBase QcLib GeomModel GeomSpec HullSpec CairoSpec FloatCodec MacroModel AmModel AmSpec MacroGeomModel MacroGeomSpec.
From Verif Require Import GerberText.
From Verif Require GerberEval GerberEvalSpec.
Import ListNotations GerberEvalSpec.
Open Scope R_scope.
Open Scope list_scope.

(** Filling rules: as in C101; nothing outside a box around a contour is inside the contour; and the
    inside of a convex polygon is what is on the left of all its sides. *)
Record sensible (fill : list curve -> shape) : Prop := {
  s_filling : filling fill;
  s_inside : forall l b, encloses b (traced l) -> encloses b (fill l);
  s_convex : forall points corners, is_hull points corners -> forall p, fill (CairoSpec.sides corners) p <-> left_of_all corners p
}.

(** ** The marks *)
Definition dark_mark (m : mark) : bool :=
  let d p := match p with Dark => true | Clear => false end in
  match m with
  | Stroke (VLine _ _ _ pol _) | Stroke (VArc _ _ _ _ _ _ pol _) | Fill _ pol _ => d pol
  | Stamp o => d (GerberEval.o_pol o)
  end.
(** The pen: a round or rectangular aperture. *)
Definition pen (o : option GerberEval.obj) : shape :=
  match o with
  | Some o =>
      match GerberEval.o_shape o with
      | GerberEval.ShCircle d _ _ _ => disc (0, 0) (real d / 2)
      | GerberEval.ShRect w h _ _ _ => oblong (real w) (real h)
      | GerberEval.ShObround w h _ _ _ => capsule (real w) (real h)
      | _ => fun _ => False
      end
  | None => fun _ => False
  end.
Definition the_arc (a b c : GerberEval.point) (d : GerberEval.direction) (q : quadrant) : arc :=
  mkArc (real_pt a) (real_pt b) (real_pt c)
        (match d with GerberEval.Clockwise => Clockwise | GerberEval.Counterclockwise => Counterclockwise end)
        (match q with SingleQ => SingleQuadrant | MultiQ => MultiQuadrant end).
(** The way a segment goes. *)
Definition goes (v : vseg) (f : curve) : Prop :=
  match v with
  | VLine a b _ _ _ => f = straight (real_pt a) (real_pt b)
  | VArc a b (Some c) d _ q _ _ =>
      exists r from l, arc_is (the_arc a b c d q) r from l /\
        f = curved (real_pt c) r from (match d with GerberEval.Counterclockwise => l | GerberEval.Clockwise => - l end)
  | VArc _ _ None _ _ _ _ _ => False
  end.
(** The corners of a regular polygon: the first is at [rot] degrees, the others follow counterclockwise. *)
Definition regular (c : pt) (n : nat) (r rot : R) : list pt :=
  map (fun i => at_angle c r ((rot + 360 / INR n * INR i) * (PI / 180))) (seq 0 n).
(** ** Macros *)
(** The primitives of a macro: each has a code and its modifiers, which are numbers. *)
Definition macro_is (ps : list (Z * list mval)) (prims : list amprim) : Prop :=
  Forall2 (fun y a => exists vs, snd y = map MNum vs /\ means (fst y) (map rnd53 vs) a) ps prims.
(** A point of the macro, turned about the origin of the macro, in a macro flashed at [c]. *)
Definition placed (c : pt) (rot : R) (p : pt) : pt :=
  let a := rot * PI / 180 in (fst c + (cos a * fst p - sin a * snd p), snd c + (sin a * fst p + cos a * snd p)).
Definition exposed (a : amprim) : bool :=
  match a with
  | ACircle on _ _ | AVector _ on _ _ _ _ | AOutline on _ _ _ | APolygon on _ _ _ _ | ACenter on _ _ _ _ | ALower on _ _ _ _ => on
  | _ => true
  end.
(** What a primitive covers when the macro is flashed at [c].  (Moires and thermals are not described here.) *)
Definition area (fill : list curve -> shape) (c : pt) (a : amprim) : shape :=
  match a with
  | ACircle _ d p => disc (placed c 0 (real_pt p)) (real d / 2)
  | AVector _ _ w s e r => moved c (vector_line_area (real_pt s) (real_pt e) (real w) (real r))
  | AOutline _ _ l r => fill (CairoSpec.sides (map (fun p => placed c (real r) (real_pt p)) l))
  | APolygon _ n p d r => fill (CairoSpec.sides (map (fun i => placed c (real r) (polygon_corner (real_pt p) n (real d) i)) (seq 0 (Z.to_nat n))))
  | ACenter _ w h q r => moved c (center_line_area (real_pt q) (real w) (real h) (real r))
  | ALower _ w h q r => moved c (turned origin (real r) (fun p => fst (real_pt q) <= fst p <= fst (real_pt q) + real w /\ snd (real_pt q) <= snd p <= snd (real_pt q) + real h))
  | _ => fun _ => False
  end.
(** An aperture flashed at [c], with its hole. *)
Definition flashed (fill : list curve -> shape) (c : pt) (s : GerberEval.shape) : shape :=
  match s with
  | GerberEval.ShCircle d hd hw hh => with_holes fill c 0 (real hd) (real hw) (real hh) (disc c (real d / 2))
  | GerberEval.ShRect w h hd hw hh => with_holes fill c 0 (real hd) (real hw) (real hh) (moved c (oblong (real w) (real h)))
  | GerberEval.ShObround w h hd hw hh => with_holes fill c 0 (real hd) (real hw) (real hh) (moved c (capsule (real w) (real h)))
  | GerberEval.ShPolygon n r rot hd hw hh =>
      with_holes fill c (real rot) (real hd) (real hw) (real hh) (fill (CairoSpec.sides (regular c (Z.to_nat n) (real r) (real rot))))
  | GerberEval.ShMacro ps => fun p => exists prims, macro_is ps prims /\ darkened (map (fun a => (exposed a, area fill c a)) prims) p
  end.
(** The points a mark covers. *)
Definition covers (fill : list curve -> shape) (m : mark) : shape :=
  match m with
  | Stroke (VLine a b o _ _) => stroke (segment (real_pt a) (real_pt b)) (pen o)
  | Stroke (VArc a b (Some c) d o q _ _) => stroke (on_arc (the_arc a b c d q)) (pen o)
  | Stroke (VArc _ _ None _ _ _ _ _) => fun _ => False
  | Fill l _ _ => fun p => exists cs, Forall2 goes l cs /\ fill cs p
  | Stamp o => match GerberEval.o_pos o with Some c => flashed fill (real_pt c) (GerberEval.o_shape o) | None => fun _ => False end
  end.
(** A point is dark if a dark mark covers it and no later clear mark does. *)
Definition shows (fill : list curve -> shape) (ms : list mark) : shape := fun p =>
  exists ms1 m ms2, ms = ms1 ++ m :: ms2 /\ dark_mark m = true /\ covers fill m p /\
    forall m', In m' ms2 -> dark_mark m' = false -> ~ covers fill m' p.

(** ** Which files are considered *)
Definition no_hole (hd hw hh : Qc) : Prop := real hd <= 0 /\ (real hw <= 0 \/ real hh <= 0).
(** Solid round or rectangular pens for lines, round ones for arcs. *)
Definition line_pen (o : GerberEval.obj) : Prop :=
  match GerberEval.o_shape o with
  | GerberEval.ShCircle d hd hw hh => 0 < real d /\ no_hole hd hw hh
  | GerberEval.ShRect w h hd hw hh => 0 < real w /\ 0 < real h /\ no_hole hd hw hh
  | _ => False
  end.
Definition arc_pen (o : GerberEval.obj) : Prop :=
  match GerberEval.o_shape o with GerberEval.ShCircle d hd hw hh => 0 < real d /\ no_hole hd hw hh | _ => False end.
(** Arcs: not full circles; single quadrant ones do not cross an axis (C50). *)
Definition fair_arc (a : arc) : Prop :=
  (exists r f l, arc_is a r f l /\ l < 2 * PI) /\ (a_quad a = MultiQuadrant \/ in_one_quadrant a).
Definition from (v : vseg) : GerberEval.point := match v with VLine a _ _ _ _ | VArc a _ _ _ _ _ _ _ => a end.
Definition upto (v : vseg) : GerberEval.point := match v with VLine _ b _ _ _ | VArc _ b _ _ _ _ _ _ => b end.
(** A contour: each segment starts where the one before ends, the first where the last ends. *)
Fixpoint follows (start : GerberEval.point) (l : list vseg) (stop : GerberEval.point) : Prop :=
  match l with [] => start = stop | v :: l => from v = start /\ follows (upto v) l stop end.
Definition fair_seg (v : vseg) : Prop :=
  match v with VLine _ _ _ _ _ => True | VArc a b (Some c) d _ q _ _ => fair_arc (the_arc a b c d q) | _ => False end.
(** Primitives of macros which are drawn where they belong: turned about their own centre or not at all
    (C87, C90).  Vector lines are always drawn too long (C88), lower left lines never. *)
Definition drawn_part (a : amprim) : Prop :=
  match a with
  | ACircle _ d _ => 0 < real d
  | AOutline _ _ _ _ => True
  | APolygon _ n p d r => 0 <= real d /\ (p = (0, 0)%Qc \/ r = 0%Qc)
  | ACenter _ w h q r => 0 < real w /\ 0 < real h /\ (q = (0, 0)%Qc \/ r = 0%Qc)
  | _ => False
  end.
Definition fair_part (a : amprim) : Prop := exposed a = true /\ drawn_part a.
(** Apertures for flashes; those with holes that the renderer fills when they are clear are flashed dark (C103). *)
Definition fair_flash (dark : bool) (s : GerberEval.shape) : Prop :=
  match s with
  | GerberEval.ShCircle d hd hw hh => 0 < real d /\ (dark = true \/ real hw <= 0 \/ real hh <= 0)
  | GerberEval.ShRect w h hd hw hh => 0 < real w /\ 0 < real h /\ (dark = true \/ no_hole hd hw hh)
  | GerberEval.ShObround w h hd hw hh => 0 < real w /\ 0 < real h
  | GerberEval.ShPolygon n r rot hd hw hh => (0 < n)%Z /\ 0 <= real r /\ (dark = true \/ no_hole hd hw hh)
  | GerberEval.ShMacro ps => dark = true /\ exists prims, macro_is ps prims /\ Forall fair_part prims
  end.
Definition fair (m : mark) : Prop :=
  match m with
  | Stroke (VLine _ _ (Some o) _ _) => line_pen o
  | Stroke (VArc a b (Some c) d (Some o) q _ _) => arc_pen o /\ fair_arc (the_arc a b c d q)
  | Stroke _ => False
  | Fill l _ _ => exists v l', l = v :: l' /\ follows (from v) l (from v) /\ Forall fair_seg l
  | Stamp o => GerberEval.o_pos o <> None /\ fair_flash (dark_mark m) (GerberEval.o_shape o)
  end.
(** The pieces of a mark: those of a macro, or all of it. *)
Definition piece (fill : list curve -> shape) (m : mark) (x : shape) : Prop :=
  match m with
  | Stamp (GerberEval.mkObj (GerberEval.ShMacro ps) (Some c) _ _) => exists prims a, macro_is ps prims /\ In a prims /\ x = area fill (real_pt c) a
  | _ => x = covers fill m
  end.
(** The marks of a file, with the primitives of its macros as marks of their own: the exposure is their polarity. *)
Definition taken_apart (fill : list curve -> shape) (m : mark) (l : list (bool * shape)) : Prop :=
  match m with
  | Stamp (GerberEval.mkObj (GerberEval.ShMacro ps) (Some c) _ _) => exists prims, macro_is ps prims /\ l = map (fun a => (exposed a, area fill (real_pt c) a)) prims
  | _ => l = [(dark_mark m, covers fill m)]
  end.
(** As [fair], but macros of either polarity and primitives of either exposure. *)
Definition drawn_mark (m : mark) : Prop :=
  match m with
  | Stamp (GerberEval.mkObj (GerberEval.ShMacro ps) (Some c) _ _) => exists prims, macro_is ps prims /\ Forall drawn_part prims
  | _ => fair m
  end.
(** Whatever covers the point reaches at least one pixel farther up. *)
Definition below_tops (fill : list curve -> shape) (s : R) (ms : list mark) (p : pt) : Prop :=
  forall m x, In m ms -> piece fill m x -> x p -> exists q, x q /\ s * snd p <= s * snd q - 1.
(** Marks that an inverted layer shows: dark ones, without holes in rectangles and polygons and without
    rectangular holes (C102). *)
Definition solid_mark (m : mark) : Prop :=
  dark_mark m = true /\
  match m with
  | Stamp o =>
      match GerberEval.o_shape o with
      | GerberEval.ShCircle _ _ hw hh | GerberEval.ShObround _ _ _ hw hh => real hw <= 0 \/ real hh <= 0
      | GerberEval.ShRect _ _ hd hw hh | GerberEval.ShPolygon _ _ _ hd hw hh => no_hole hd hw hh
      | GerberEval.ShMacro _ => True
      end
  | _ => True
  end.

(** The outermost coordinates of a file. *)
Definition coordinate_box (l : list stmt) (b : rbox) : Prop :=
  exists x0 x1 y0 y1, least x0 (x_coords l) /\ greatest x1 (x_coords l) /\ least y0 (y_coords l) /\ greatest y1 (y_coords l) /\
    b = ((real x0, real x1), (real y0, real y1)).
