(** What it means for memoized bounding boxes to be up to date. *)
From Coq Require Import Reals List Bool.
From Verif Require Export CacheModel.
From Verif Require Import GeomModel.
Import ListNotations.
Open Scope R_scope.
Open Scope list_scope.

(** The same object built anew from its public attributes. *)
Definition rebuilt (s : st) : st := create (points s) (numbers s) (ap s) (dir s) (quad s) (rot s) (units s).
Definition is_new (s : st) : Prop := s = rebuilt s.
Definition up_to_date (k : kind) (s : st) : Prop :=
  fst (read k s) = fst (read k (rebuilt s)) /\ fst (read_no_aperture k s) = fst (read_no_aperture k (rebuilt s)).

(** The operations after which a box that has been read before may be out of date. *)
Definition exceptional (k : kind) (o : op) : bool :=
  match k, o with
  | (Line | Arc), SetAperture _ => true
  | Arc, SetDirection _ => true
  | (RoundButterfly | SquareButterfly | Donut | SquareRoundDonut), SetPoint Position _ => true
  | RoundButterfly, SetNumber Diameter _ => true
  | SquareButterfly, SetNumber Side _ => true
  | Donut, SetNumber (Width | Height) _ => true
  | SquareRoundDonut, SetNumber OuterDiameter _ => true
  | Slot, (SetPoint (Start | End) _ | SetNumber Diameter _ | Offset _) => true
  | _, _ => false
  end.
(** The same operation, perhaps with another value. *)
Definition same_attribute (o o' : op) : Prop :=
  match o, o' with
  | SetPoint a _, SetPoint b _ => a = b
  | SetNumber a _, SetNumber b _ => a = b
  | SetAperture _, SetAperture _ | SetDirection _, SetDirection _ | Offset _, Offset _ => True
  | _, _ => False
  end.

(** Groups. *)
Definition g_rebuilt (g : group) : group := mkG (map (fun x => (fst x, rebuilt (snd x))) (parts g)) (g_units g) None.
Definition g_is_new (g : group) : Prop := g = g_rebuilt g.
Definition g_up_to_date (k : group_kind) (g : group) : Prop := fst (g_read k g) = fst (g_read k (g_rebuilt g)).
(** Regions and outlines remember their box: nothing may be changed behind their back.  Macro groups
    do not: their parts may be changed too. *)
Definition g_exceptional (k : group_kind) (ks : list kind) (o : gop) : bool :=
  match o with
  | GPart i (Read | ReadNoAperture) => false
  | GPart i o => match k with Macro => match nth_error ks i with Some k' => exceptional k' o | None => false end | _ => true end
  | _ => false
  end.
Definition no_slots (g : group) : Prop := forall x, In x (parts g) -> fst x <> Slot.

(** Boxes moved and scaled. *)
Definition shifted (d : pt) (b : rbox) : rbox :=
  ((fst (fst b) + fst d, snd (fst b) + fst d), (fst (snd b) + snd d, snd (snd b) + snd d)).
Definition magnified (f : R) (b : rbox) : rbox :=
  ((f * fst (fst b), f * snd (fst b)), (f * fst (snd b), f * snd (snd b))).
(** Millimetres per inch, or inches per millimetre. *)
Definition per_unit (u : unit_) : R := match u with Metric => 254 / 10 | Inch => / (254 / 10) end.
