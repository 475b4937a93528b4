(** What an image of a layer is expected to show. *)
From Verif Require Export GeomSpec CairoModel.
Import ListNotations.
Open Scope R_scope.
Open Scope list_scope.

(** ** Shapes *)
Definition without (s hole : shape) : shape := fun p => s p /\ ~ hole p.
(** The point which is at (x, y) from [c], turned by [rot] degrees about [c]. *)
Definition turn (c : pt) (rot x y : R) : pt :=
  (fst c + (cos (rot * PI / 180) * x - sin (rot * PI / 180) * y), snd c + (sin (rot * PI / 180) * x + cos (rot * PI / 180) * y)).
(** The sides of a polygon. *)
Fixpoint joined (from : pt) (l : list pt) : list curve :=
  match l with [] => [] | p :: l => straight from p :: joined p l end.
Definition sides (l : list pt) : list curve := joined (last l (0, 0)) l.

(** What any reasonable way to fill a contour does: it does not matter how the pieces are described,
    pieces which are only points do not matter, and magnifying the contour magnifies what is inside. *)
Definition magnify (s : R) (p : pt) : pt := (s * fst p, s * snd p).
Record filling (fill : list curve -> shape) : Prop := {
  same_curves : forall l l' p, Forall2 (fun f g => forall t, f t = g t) l l' -> fill l p <-> fill l' p;
  still_curves : forall l1 f l2 p, (forall t, f t = f 0) -> fill (l1 ++ f :: l2) p <-> fill (l1 ++ l2) p;
  magnified : forall s l p, 0 < s -> fill (map (fun (f : curve) t => magnify s (f t)) l) (magnify s p) <-> fill l p
}.

(** Holes in apertures. *)
Definition round_hole (c : pt) (d : R) : shape := fun p => 0 < d /\ disc c (d / 2) p.
Definition rect_hole (fill : list curve -> shape) (c : pt) (rot w h : R) : shape := fun p =>
  0 < w /\ 0 < h /\ fill (sides [turn c rot (- (w / 2)) (- (h / 2)); turn c rot (w / 2) (- (h / 2)); turn c rot (w / 2) (h / 2); turn c rot (- (w / 2)) (h / 2)]) p.
Definition with_holes fill (c : pt) (rot d w h : R) (s : shape) : shape := without (without s (round_hole c d)) (rect_hole fill c rot w h).
(** The contour of a region. *)
Definition seg_is (s : seg) (f : curve) : Prop :=
  match s with
  | SLine a b => f = straight a b
  | SArc a => exists r f0 l, arc_is a r f0 l /\ f = curved (a_center a) r f0 (match a_dir a with Counterclockwise => l | Clockwise => - l end)
  end.
Definition prim_shape (fill : list curve -> shape) (p : prim) : shape :=
  match p with
  | PLine a b d | PSlot a b d => stroke (segment a b) (disc (0, 0) (d / 2))
  | PHull vs => fill (sides vs)
  | PArc a d => stroke (on_arc a) (disc (0, 0) (d / 2))
  | PRegion segs => fun q => exists cs, Forall2 seg_is segs cs /\ fill cs q
  | PCircle c d rot hd hw hh => with_holes fill c rot hd hw hh (disc c (d / 2))
  | PRect c w h rot hd hw hh => with_holes fill c rot hd hw hh (turned c rot (oblong w h))
  | PObround c w h rot hd hw hh => with_holes fill c rot hd hw hh (turned c rot (capsule w h))
  | PPolygon c vs rot hd hw hh => with_holes fill c rot hd hw hh (fill (sides vs))
  end.

(** ** Polarity: a point is dark if something dark covers it and nothing clear after that does. *)
Definition darkened (l : list (bool * shape)) : shape := fun p =>
  exists l1 s l2, l = l1 ++ (true, s) :: l2 /\ s p /\ forall s', In (false, s') l2 -> ~ s' p.
Definition drawn_shape fill (d : drawn) : bool * shape := (dark d, prim_shape fill (what d)).
(** A macro is one picture, made of its parts; it is drawn with one polarity. *)
Definition item_shape fill (i : item) : bool * shape :=
  match i with Single d => drawn_shape fill d | Group d l => (d, darkened (map (drawn_shape fill) l)) end.
Definition layer_shows fill (l : list item) : shape := darkened (map (item_shape fill) l).

(** ** Positions in the image: the bounds [b] of the board at [s] pixels per unit, upside up.  The
    distances are from the left and from the top. *)
Definition pixel (s : R) (b : rbox) (mirrored : bool) (p : pt) : pt :=
  (s * (if mirrored then snd (fst b) - fst p else fst p - fst (fst b)), s * (snd (snd b) - snd p)).

(** ** Which primitives are considered *)
Definition no_holes (d w h : R) : Prop := d <= 0 /\ (w <= 0 \/ h <= 0).
Fixpoint connected (first : pt) (l : list seg) (to : pt) : Prop :=
  match l with
  | [] => first = to
  | SLine a b :: l => a = first /\ connected b l to
  | SArc a :: l => a_start a = first /\ connected (a_end a) l to
  end.
(** An arc which is not a full circle. *)
Definition open_arc (a : arc) : Prop := exists r f l, arc_is a r f l /\ l < 2 * PI.
Definition open_seg (s : seg) : Prop := match s with SLine _ _ => True | SArc a => open_arc a end.
Definition simple (p : prim) : Prop :=
  match p with
  | PLine _ _ d | PSlot _ _ d => 0 < d
  | PHull vs => vs <> []
  | PArc a d => 0 < d /\ open_arc a
  | PRegion segs => exists s l, segs = s :: l /\ connected (seg_start s) segs (seg_start s) /\ Forall open_seg segs
  | PCircle _ d _ _ _ _ => 0 < d
  | PRect _ w h rot _ _ _ | PObround _ w h rot _ _ _ => 0 < w /\ 0 < h /\ rot = 0
  | PPolygon _ vs _ _ _ _ => vs <> []
  end.
(** Holes which the renderer leaves open although the primitive removes material. *)
Definition removable (p : prim) : Prop :=
  match p with
  | PCircle _ _ _ _ hw hh => hw <= 0 \/ hh <= 0
  | PObround _ _ _ _ _ hw hh => True
  | PRect _ _ _ _ hd hw hh | PPolygon _ _ _ hd hw hh => no_holes hd hw hh
  | _ => True
  end.
Definition renderable fill (d : drawn) : Prop :=
  encloses (bbox d) (prim_shape fill (what d)) /\ simple (what d) /\ (dark d = true \/ removable (what d)).
(** Macros: those whose parts are all dark, drawn dark. *)
Definition renderable_item fill (i : item) : Prop :=
  match i with Single d => renderable fill d | Group d l => d = true /\ Forall (fun x => renderable fill x /\ dark x = true) l end.
(** At least one pixel below the top of the box of whatever covers the point. *)
Definition below_top fill (s : R) (l : list item) (p : pt) : Prop :=
  forall d, In d (flat_map parts l) -> prim_shape fill (what d) p -> s * snd p <= s * snd (snd (bbox d)) - 1.
(** ** Inverted layers: solid dark shapes. *)
Definition solid (p : prim) : Prop :=
  match p with
  | PCircle _ _ _ _ hw hh | PObround _ _ _ _ _ hw hh => hw <= 0 \/ hh <= 0
  | PRect _ _ _ _ hd hw hh | PPolygon _ _ _ hd hw hh => no_holes hd hw hh
  | _ => True
  end.
Definition invertible fill (d : drawn) : Prop := encloses (bbox d) (prim_shape fill (what d)) /\ simple (what d) /\ dark d = true /\ solid (what d).
Definition invertible_item fill (i : item) : Prop :=
  match i with Single d => invertible fill d | Group d l => d = true /\ Forall (invertible fill) l end.
