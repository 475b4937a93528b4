(** Model of the memoized bounding boxes of gerber/primitives.py: which assignments clear them.
    Simplifications: numbers are exact reals; an aperture is a value of the line drawn with it (an
    aperture without width, height and radius makes the box of a line fail and is left out). *)
From Coq Require Import Reals List Bool.
From Verif Require Import GeomModel.
Import ListNotations.
Open Scope R_scope.
Open Scope list_scope.

(** The classes; Rect stands for Rectangle, Diamond, ChamferRectangle, RoundRectangle and Obround,
    which have the same setters and the same box. *)
Inductive kind := Line | Arc | Circle | Ellipse | Rect | Polygon | RoundButterfly | SquareButterfly
                | Donut | SquareRoundDonut | Drill | Slot.
Inductive pattr := Position | Start | End | Center.
Inductive nattr := Diameter | Width | Height | Radius | Side | InnerDiameter | OuterDiameter | Chamfer | Sides | HoleDiameter | HoleWidth | HoleHeight.
Inductive unit_ := Inch | Metric.
Definition pattr_eqb (a b : pattr) : bool :=
  match a, b with Position, Position | Start, Start | End, End | Center, Center => true | _, _ => false end.
Definition nattr_eqb (a b : nattr) : bool :=
  match a, b with
  | Diameter, Diameter | Width, Width | Height, Height | Radius, Radius | Side, Side | InnerDiameter, InnerDiameter
  | OuterDiameter, OuterDiameter | Chamfer, Chamfer | Sides, Sides | HoleDiameter, HoleDiameter | HoleWidth, HoleWidth | HoleHeight, HoleHeight => true
  | _, _ => false
  end.
Definition unit_eqb (a b : unit_) : bool := match a, b with Inch, Inch | Metric, Metric => true | _, _ => false end.

(** The attributes of an object; the last three are private: _cos_theta, _sin_theta, _bounding_box. *)
Record st := mkSt { points : pattr -> pt; numbers : nattr -> R; ap : aperture; dir : direction; quad : quadrants;
                    rot : R; units : option unit_; cos_t : R; sin_t : R; cache : option rbox }.

(** primitives.py:191-203 _changed *)
Definition changed (s : st) : st :=
  mkSt (points s) (numbers s) (ap s) (dir s) (quad s) (rot s) (units s) (cos_t s) (sin_t s) None.
Definition put_point (a : pattr) (p : pt) (s : st) : st :=
  mkSt (fun b => if pattr_eqb a b then p else points s b) (numbers s) (ap s) (dir s) (quad s) (rot s) (units s) (cos_t s) (sin_t s) (cache s).
Definition put_number (a : nattr) (x : R) (s : st) : st :=
  mkSt (points s) (fun b => if nattr_eqb a b then x else numbers s b) (ap s) (dir s) (quad s) (rot s) (units s) (cos_t s) (sin_t s) (cache s).

(** Does assigning the point attribute go through a setter that calls _changed?
    Line 225-237, Arc 347-368, Circle 545-548, Ellipse 615-618, Rectangle 695-698 (Diamond 807-810,
    ChamferRectangle 884-887, RoundRectangle 1004-1007, Obround 1091-1094), Polygon 1202-1205, Drill
    1618-1621.  The butterflies, donuts (1463, 1495, 1528, 1579) and Slot (1661-1662) have plain attributes. *)
Definition point_setter (k : kind) (a : pattr) : bool :=
  match k, a with
  | Line, (Start | End) => true
  | Arc, (Start | End | Center) => true
  | (Circle | Ellipse | Rect | Polygon | Drill), Position => true
  | _, _ => false
  end.
(** The same for numbers: Circle 554-557, Ellipse 624-636, Rectangle 704-716 (and its relatives; the
    chamfer 911-914 and the radius 1031-1034), Polygon 1211-1214, Drill 1627-1630. *)
Definition number_setter (k : kind) (a : nattr) : bool :=
  match k, a with
  | (Circle | Drill), Diameter => true
  | Ellipse, (Width | Height) => true
  | Rect, (Width | Height | Chamfer | Radius) => true
  | Polygon, Radius => true
  | _, _ => false
  end.
Definition set_point (k : kind) (a : pattr) (p : pt) (s : st) : st :=
  put_point a p (if point_setter k a then changed s else s).
Definition set_number (k : kind) (a : nattr) (x : R) (s : st) : st :=
  put_number a x (if number_setter k a then changed s else s).
(** 77-80 *)
Definition set_units (u : option unit_) (s : st) : st :=
  mkSt (points s) (numbers s) (ap s) (dir s) (quad s) (rot s) u (cos_t s) (sin_t s) None.
(** 86-91 *)
Definition set_rotation (r : R) (s : st) : st :=
  mkSt (points s) (numbers s) (ap s) (dir s) (quad s) r (units s) (cos (radians r)) (sin (radians r)) None.
(** 374-377, for arcs; a plain attribute elsewhere *)
Definition set_quadrant (k : kind) (q : quadrants) (s : st) : st :=
  mkSt (points s) (numbers s) (ap s) (dir s) q (rot s) (units s) (cos_t s) (sin_t s) (match k with Arc => None | _ => cache s end).
(** 214, 334-335: plain attributes *)
Definition set_aperture (a : aperture) (s : st) : st :=
  mkSt (points s) (numbers s) a (dir s) (quad s) (rot s) (units s) (cos_t s) (sin_t s) (cache s).
Definition set_direction (d : direction) (s : st) : st :=
  mkSt (points s) (numbers s) (ap s) d (quad s) (rot s) (units s) (cos_t s) (sin_t s) (cache s).

(** The boxes, from the attributes that the code reads. *)
Definition the_arc (s : st) : arc := mkArc (points s Start) (points s End) (points s Center) (dir s) (quad s).
Definition box_of (k : kind) (s : st) : rbox :=
  match k with
  | Line => match ap s with                               (* 246-260 *)
            | Round r => grow Rplus Rminus (line_box0 (points s Start) (points s End)) r r
            | Sized w h => line_box_rect (points s Start) (points s End) w h
            end
  | Arc => arc_box (the_arc s) (ap s)                     (* 408-461 *)
  | Circle | RoundButterfly | Drill => circle_box (points s Position) (numbers s Diameter)
  | Ellipse => ellipse_box (points s Position) (rot s) (numbers s Width) (numbers s Height)
  | Rect => BoxModel.rect_box Rplus Rminus Rmult half (points s Position) (cos_t s) (sin_t s) (numbers s Width) (numbers s Height)
  | Polygon => polygon_box (points s Position) (numbers s Radius)
  | SquareButterfly => square_box (points s Position) (numbers s Side)
  | Donut => donut_box (points s Position) (numbers s Width) (numbers s Height)
  | SquareRoundDonut => square_box (points s Position) (numbers s OuterDiameter)
  | Slot => slot_box (points s Start) (points s End) (numbers s Diameter)
  end.
Definition store (b : rbox) (s : st) : st :=
  mkSt (points s) (numbers s) (ap s) (dir s) (quad s) (rot s) (units s) (cos_t s) (sin_t s) (Some b).
(** The bounding_box property. *)
Definition read (k : kind) (s : st) : rbox * st :=
  match cache s with
  | Some b => (b, s)
  | None => (box_of k s, store (box_of k s) s)
  end.
(** bounding_box_no_aperture: 116-125, and 262-269, 463-513 for lines and arcs. *)
Definition read_no_aperture (k : kind) (s : st) : rbox * st :=
  match k with
  | Line => (line_box0 (points s Start) (points s End), s)
  | Arc => (arc_box0 (the_arc s), s)
  | _ => read k s
  end.

(** offset: 177-187, Line 299-304, Arc 515-519, Circle 579-580, Polygon 1226-1227, Drill 1646-1648,
    Slot 1682-1684. *)
Definition move (d : pt) (p : pt) : pt := (fst p + fst d, snd p + snd d).
Definition move_point (k : kind) (d : pt) (a : pattr) (s : st) : st := set_point k a (move d (points s a)) s.
Definition offset (k : kind) (d : pt) (s : st) : st :=
  match k with
  | Line => move_point k d End (move_point k d Start (changed s))
  | Arc => move_point k d Center (move_point k d End (move_point k d Start (changed s)))
  | Slot => move_point k d End (move_point k d Start s)
  | Circle | Polygon => move_point k d Position s
  | _ => move_point k d Position (changed s)
  end.

(** _to_convert: 215, 337, 535, 605, 681 (797, 874, 994, 1080), 1181, 1465, 1497, 1542, 1585, 1608, 1664 *)
Definition convert_points (k : kind) : list pattr :=
  match k with Line | Slot => [Start; End] | Arc => [Start; End; Center] | _ => [Position] end.
Definition convert_numbers (k : kind) : list nattr :=
  match k with
  | Line | Arc => []
  | Circle => [Diameter; HoleDiameter; HoleWidth; HoleHeight]
  | Ellipse => [Width; Height]
  | Rect => [Width; Height; HoleDiameter; HoleWidth; HoleHeight; Chamfer; Radius]
  | Polygon => [Radius; HoleDiameter; HoleWidth; HoleHeight]
  | RoundButterfly | Drill | Slot => [Diameter]
  | SquareButterfly => [Side]
  | Donut => [Width; Height; InnerDiameter; OuterDiameter]
  | SquareRoundDonut => [InnerDiameter; OuterDiameter]
  end.
Definition unit_factor (u : unit_) : R := match u with Metric => 254 / 10 | Inch => 10 / 254 end.
Definition scale_ap (f : R) (a : aperture) : aperture := match a with Round r => Round (f * r) | Sized w h => Sized (f * w) (f * h) end.
Definition other_unit (u : unit_) : unit_ := match u with Inch => Metric | Metric => Inch end.
(** 127-175 to_inch and to_metric.  Simplification: the aperture is in the same unit as the line. *)
Definition convert (k : kind) (u : unit_) (s : st) : st :=
  match units s with
  | Some w =>
      if unit_eqb w (other_unit u) then
        let f := unit_factor u in
        let s1 := set_units (Some u) s in
        let s2 := fold_left (fun s a => set_point k a (f * fst (points s a), f * snd (points s a)) s) (convert_points k) s1 in
        let s3 := fold_left (fun s a => set_number k a (f * numbers s a) s) (convert_numbers k) s2 in
        match k with Line | Arc => set_aperture (scale_ap f (ap s3)) s3 | _ => s3 end
      else s
  | None => s
  end.

(** What a program can do with an object. *)
Inductive op :=
| Read
| ReadNoAperture
| SetPoint (a : pattr) (p : pt)
| SetNumber (a : nattr) (x : R)
| SetRotation (r : R)
| SetUnits (u : option unit_)
| SetQuadrant (q : quadrants)
| SetAperture (a : aperture)
| SetDirection (d : direction)
| Offset (d : pt)
| Convert (u : unit_).
Definition step (k : kind) (o : op) (s : st) : st :=
  match o with
  | Read => snd (read k s)
  | ReadNoAperture => snd (read_no_aperture k s)
  | SetPoint a p => set_point k a p s
  | SetNumber a x => set_number k a x s
  | SetRotation r => set_rotation r s
  | SetUnits u => set_units u s
  | SetQuadrant q => set_quadrant k q s
  | SetAperture a => set_aperture a s
  | SetDirection d => set_direction d s
  | Offset d => offset k d s
  | Convert u => convert k u s
  end.
Definition run (k : kind) (l : list op) (s : st) : st := fold_left (fun s o => step k o s) l s.
(** A new object (51-63 and the constructors). *)
Definition create (ps : pattr -> pt) (ns : nattr -> R) (a : aperture) (d : direction) (q : quadrants) (r : R) (u : option unit_) : st :=
  mkSt ps ns a d q r u (cos (radians r)) (sin (radians r)) None.

(** ** Objects made of others: Region 1424-1453, Outline 1356-1390, AMGroup 1256-1340. *)
Inductive group_kind := Region | Outline | Macro.
Record group := mkG { parts : list (kind * st); g_units : option unit_; g_cache : option rbox }.
Definition read_parts (f : kind -> st -> rbox * st) (l : list (kind * st)) : list rbox * list (kind * st) :=
  (map (fun x => fst (f (fst x) (snd x))) l, map (fun x => (fst x, snd (f (fst x) (snd x)))) l).
(** 1437-1448, 1374-1385, 1299-1309; None where an empty list makes the unpacking fail.  Only the
    first two are memoized. *)
Definition g_read (k : group_kind) (g : group) : option rbox * group :=
  match g_cache g with
  | Some b => (Some b, g)
  | None =>
      let (bs, ps) := read_parts (match k with Region => read_no_aperture | _ => read end) (parts g) in
      let b := boxes_box bs in
      (b, mkG ps (g_units g) (match k with Macro => None | _ => b end))
  end.
(** 1450-1453, 1387-1390, 1315-1319 *)
Definition g_offset (k : group_kind) (d : pt) (g : group) : group :=
  mkG (map (fun x => (fst x, offset (fst x) d (snd x))) (parts g)) (g_units g) (match k with Macro => g_cache g | _ => None end).
(** 127-175; a list of one part is not converted (len(value) > 1) *)
Definition g_convert (u : unit_) (g : group) : group :=
  match g_units g with
  | Some w =>
      if unit_eqb w (other_unit u) then
        mkG (match parts g with _ :: _ :: _ => map (fun x => (fst x, convert (fst x) u (snd x))) (parts g) | l => l end) (Some u) None
      else g
  | None => g
  end.
Fixpoint at_nth {A} (i : nat) (f : A -> A) (l : list A) : list A :=
  match l, i with
  | [], _ => []
  | x :: r, O => f x :: r
  | x :: r, S i' => x :: at_nth i' f r
  end.
Inductive gop := GRead | GOffset (d : pt) | GConvert (u : unit_) | GPart (i : nat) (o : op).
Definition g_step (k : group_kind) (o : gop) (g : group) : group :=
  match o with
  | GRead => snd (g_read k g)
  | GOffset d => g_offset k d g
  | GConvert u => g_convert u g
  | GPart i o => mkG (at_nth i (fun x => (fst x, step (fst x) o (snd x))) (parts g)) (g_units g) (g_cache g)
  end.
Definition g_run (k : group_kind) (l : list gop) (g : group) : group := fold_left (fun g o => g_step k o g) l g.
