(** What the objects of a Gerber file's primitives should hold: the attributes of each say what the
    mark at the same place of the image looks like. *)
From Verif Require Export ScaleSpec.
Open Scope list_scope.
Open Scope Qc_scope.

Definition attr (h : heap) (l : HeapModel.loc) (n : string) : option value :=
  match hget h l with Some o => getattr n (po_attrs o) | None => None end.
Definition number_at (h : heap) (l : HeapModel.loc) (n : string) (q : Qc) : Prop := attr h l n = Some (VNum q).
Definition point_at (h : heap) (l : HeapModel.loc) (n : string) (p : point) : Prop :=
  attr h l n = Some (VSeq true [VNum (fst p); VNum (snd p)]).
Definition maybe_point_at (h : heap) (l : HeapModel.loc) (n : string) (p : option point) : Prop :=
  match p with Some p => point_at h l n p | None => attr h l n = Some VNone end.
Definition units_at (h : heap) (l : HeapModel.loc) (u : unit_) : Prop := option_map po_units (hget h l) = Some (Some u).
Definition hole_at (h : heap) (l : HeapModel.loc) (d x y : Qc) : Prop :=
  number_at h l "hole_diameter" d /\ number_at h l "hole_width" x /\ number_at h l "hole_height" y.

(** The object at [l] has the shape, place and units of [o].  What a macro is made of is left out. *)
Definition holds_shape (h : heap) (l : HeapModel.loc) (o : obj) : Prop :=
  units_at h l (o_units o) /\
  match o_shape o with
  | ShCircle d hd hw hh => maybe_point_at h l "position" (o_pos o) /\ number_at h l "diameter" d /\ hole_at h l hd hw hh
  | ShRect x y hd hw hh | ShObround x y hd hw hh =>
      maybe_point_at h l "position" (o_pos o) /\ number_at h l "width" x /\ number_at h l "height" y /\ hole_at h l hd hw hh
  | ShPolygon n r rot hd hw hh =>
      maybe_point_at h l "position" (o_pos o) /\ number_at h l "sides" (zq n) /\ number_at h l "radius" r /\
      number_at h l "rotation" rot /\ hole_at h l hd hw hh
  | ShMacro _ => maybe_point_at h l "_position" (o_pos o)
  end.
(** A segment has the aperture, or one of no width when it has none. *)
Definition holds_aperture (h : heap) (l : HeapModel.loc) (ap : option obj) : Prop :=
  exists m, attr h l "aperture" = Some (VRef m) /\
    match ap with Some o => holds_shape h m o | None => number_at h m "diameter" 0 end.
Definition holds_segment (h : heap) (l : HeapModel.loc) (s : vseg) : Prop :=
  match s with
  | VLine a b ap _ u => units_at h l u /\ point_at h l "start" a /\ point_at h l "end" b /\ holds_aperture h l ap
  | VArc a b c _ ap _ _ u =>
      units_at h l u /\ point_at h l "start" a /\ point_at h l "end" b /\ maybe_point_at h l "center" c /\ holds_aperture h l ap
  end.
Definition holds (h : heap) (l : HeapModel.loc) (m : mark) : Prop :=
  match m with
  | Stroke s => holds_segment h l s
  | Fill segs _ u => units_at h l u /\
      exists ls, attr h l "primitives" = Some (VSeq false (map VRef ls)) /\ Forall2 (holds_segment h) ls segs
  | Stamp o => holds_shape h l o
  end.
