(** Specification of unit conversion of object graphs. *)
From Verif Require Import PyBase QcLib NumModel GerberText HeapModel.
Open Scope Qc_scope.

(** The objects a value refers to. *)
Fixpoint links (v : value) : list loc :=
  match v with
  | VRef l => [l]
  | VSeq _ items => flat_map links items
  | _ => []
  end.
(** The lengths of an object: what its class lists as convertible. *)
Definition lengths (o : pobj) : list (string * value) := filter (fun a => if in_dec string_dec (fst a) (po_conv o) then true else false) (po_attrs o).
(** The objects that an object is made of. *)
Definition parts (o : pobj) : list loc := flat_map (fun a => links (snd a)) (lengths o).
(** [l'] is [l], or part of it, or part of a part, ... *)
Inductive part_of (h : heap) : loc -> loc -> Prop :=
| Part_self l : part_of h l l
| Part_sub l o m l' : hget h l = Some o -> In m (parts o) -> part_of h m l' -> part_of h l l'.

(** An object with every length, position and point multiplied by the factor between the units:
    1 inch = 25.4 mm. *)
Fixpoint rescale_value (f : Qc) (v : value) : value :=
  match v with
  | VNum q => VNum (f * q)
  | VSeq t l => VSeq t (map (rescale_value f) l)
  | _ => v
  end.
Definition factor (u : unit_) : Qc := match u with Metric => dec 254 1 | Inch => 1 / dec 254 1 end.
Definition rescaled (u : unit_) (o : pobj) : pobj :=
  match po_units o with
  | None => o        (* an object without units has nothing to convert *)
  | Some _ =>
      mkP (Some u) (po_conv o)
          (map (fun a => if in_dec string_dec (fst a) (po_conv o) then (fst a, rescale_value (factor u) (snd a)) else a) (po_attrs o))
  end.

(** Values that convertible attributes may hold: nothing, a length, a point, a list of points, an
    object, a list of objects. *)
Definition number (v : value) : Prop := exists q, v = VNum q.
Definition is_point (v : value) : Prop := exists a b l, v = VSeq true (a :: b :: l) /\ Forall number (a :: b :: l).
Inductive proper (n : nat) : value -> Prop :=
| Proper_none : proper n VNone
| Proper_num q : proper n (VNum q)
| Proper_point v : is_point v -> proper n v
| Proper_points a b l : Forall is_point (a :: b :: l) -> proper n (VSeq false (a :: b :: l))
| Proper_obj l : (l < n)%nat -> proper n (VRef l)
| Proper_objs ls : Forall (fun l => l < n)%nat ls -> proper n (VSeq false (map VRef ls)).
(** Objects whose classes are set up properly. *)
Definition proper_obj (n : nat) (o : pobj) : Prop :=
  NoDup (po_conv o) /\ NoDup (map fst (po_attrs o)) /\
  (forall a, In a (po_conv o) -> exists v, getattr a (po_attrs o) = Some v /\ proper n v).
Definition proper_heap (h : heap) : Prop := Forall (proper_obj (List.length h)) h.
(** No list with just one object in it. *)
Definition no_single_lists (h : heap) : Prop :=
  forall l o a t v, hget h l = Some o -> In a (lengths o) -> snd a <> VSeq t [v].
(** Every part of the objects [ls] is in unit [u], or has no units and no parts. *)
Definition all_in (u : unit_) (h : heap) (ls : list loc) : Prop :=
  forall l m o, In l ls -> part_of h l m -> hget h m = Some o -> po_units o = Some u \/ (po_units o = None /\ parts o = []).

(** [h'] is [h] with exactly the parts of [ls] converted, each once. *)
Definition converts_exactly (u : unit_) (h : heap) (ls : list loc) (h' : heap) : Prop :=
  List.length h' = List.length h /\
  (forall l m, In l ls -> part_of h l m -> hget h' m = option_map (rescaled u) (hget h m)) /\
  (forall m, (forall l, In l ls -> ~ part_of h l m) -> hget h' m = hget h m).

(** The physical lengths of an object: its numbers, in millimetres. *)
Definition in_mm (u : option unit_) : Qc := match u with Some Inch => dec 254 1 | _ => 1 end.
Definition physical (o : pobj) : list (string * value) :=
  map (fun a => (fst a, rescale_value (in_mm (po_units o)) (snd a))) (lengths o).
(** Everything else: the attributes that are not lengths. *)
Definition non_lengths (o : pobj) : list (string * value) :=
  filter (fun a => if in_dec string_dec (fst a) (po_conv o) then false else true) (po_attrs o).

(** *** Moving *)
(** The points of an object, and the objects it contains (an aperture is not contained in the
    lines drawn with it). *)
Definition point_names : list string := ["start"; "end"; "center"; "position"; "_position"]%string.
Definition moved_value (d : Qc * Qc) (v : value) : value :=
  match v with VSeq t [VNum x; VNum y] => VSeq true [VNum (x + fst d); VNum (y + snd d)] | _ => v end.
Definition moved (d : Qc * Qc) (o : pobj) : pobj :=
  mkP (po_units o) (po_conv o)
      (map (fun a => if in_dec string_dec (fst a) point_names then (fst a, moved_value d (snd a)) else a) (po_attrs o)).
Definition contents (o : pobj) : list loc := match getattr "primitives"%string (po_attrs o) with Some v => links v | None => [] end.
(** [members h ls ms]: [ms] lists the objects [ls], their contents, the contents of these, ... *)
Inductive members (h : heap) : list loc -> list loc -> Prop :=
| Members_nil : members h [] []
| Members_cons l o ls ms1 ms2 : hget h l = Some o -> members h (contents o) ms1 -> members h ls ms2 ->
    members h (l :: ls) (l :: ms1 ++ ms2).
(** Objects whose points all exist and whose contents are objects. *)
Definition movable (o : pobj) : Prop :=
  NoDup (map fst (po_attrs o)) /\
  (forall a v, In a point_names -> getattr a (po_attrs o) = Some v -> exists t x y, v = VSeq t [VNum x; VNum y]) /\
  (forall v, getattr "primitives"%string (po_attrs o) = Some v -> exists t ls, v = VSeq t (map VRef ls)).
(** [h'] is [h] with exactly the objects [ms] moved, each once. *)
Definition moves_exactly (d : Qc * Qc) (h : heap) (ms : list loc) (h' : heap) : Prop :=
  forall m, (In m ms -> hget h' m = option_map (moved d) (hget h m)) /\ (~ In m ms -> hget h' m = hget h m).

(** *** Classes *)
(** The objects that the classes of primitives.py create. *)
Inductive of_class : pobj -> Prop :=
| Of_line a b ap u : of_class (new_line a b ap u)
| Of_arc a b c ap u : of_class (new_arc a b c ap u)
| Of_circle p d hd hw hh u : of_class (new_circle p d (VNum hd) hw hh u)
| Of_rect p w h hd hw hh u : of_class (new_rect p w h hd hw hh u)
| Of_ellipse p w h u : of_class (new_ellipse p w h u)
| Of_chamfer p w h c u : of_class (new_chamfer p w h c u)
| Of_round p w h r u : of_class (new_round p w h r u)
| Of_polygon p s r rot hd hw hh u : of_class (new_polygon p s r rot hd hw hh u)
| Of_group p inner stmt u : of_class (new_group p inner stmt u)
| Of_region inner u : of_class (new_region inner u)
| Of_drill p d u : of_class (new_drill p d u)
| Of_square_butterfly p s u : of_class (new_square_butterfly p s u)
| Of_donut p w h i o u : of_class (new_donut p w h i o u)
| Of_square_round_donut p i o u : of_class (new_square_round_donut p i o u)
| Of_slot a b d u : of_class (new_slot a b d u)
| Of_test_record p u : of_class (new_test_record p u).
(** Attributes that are not lengths, positions or objects: counts, angles, flags, names. *)
Definition dimensionless : list string := ["sides"; "rotation"; "corners"; "net_name"; "layer"]%string.
