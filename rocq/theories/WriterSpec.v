(** What it means for a rendered file to contain the primitives that were rendered. *)
From Verif Require Import PyBase QcLib NumModel NumSpec GerberText GerberTextSpec GerberEval GerberEvalSpec.
From Verif Require Export WriterModel.
Open Scope Qc_scope.
Open Scope list_scope.

(** ** Shapes *)

Definition absent (o : option Qc) : Prop := o = None \/ o = Some 0.
(** The hole, as diameter, width and height with zeros for what there is not: none, round or rectangular. *)
Definition hole_is (h : holes) (d w k : Qc) : Prop :=
  let '(hd, hw, hk) := h in
  (absent hd /\ absent hw /\ absent hk /\ d = 0 /\ w = 0 /\ k = 0) \/
  (hd = Some d /\ 0 < d /\ absent hw /\ absent hk /\ w = 0 /\ k = 0) \/
  (absent hd /\ d = 0 /\ hw = Some w /\ 0 < w /\ hk = Some k /\ 0 < k).
(** The shape a figure is: kind, dimensions, hole.  Only polygons may be turned. *)
Definition figure_is (f : figure) (s : shape) : Prop :=
  match f, s with
  | FCircle d h, ShCircle d' a b c => d' = d /\ hole_is h a b c
  | FRect w h hs t, ShRect w' h' a b c => w' = w /\ h' = h /\ t = 0 /\ hole_is hs a b c
  | FObround w h hs t, ShObround w' h' a b c => w' = w /\ h' = h /\ t = 0 /\ hole_is hs a b c
  | FPolygon n r t hs, ShPolygon n' r' t' a b c => n' = n /\ r' = r /\ t' = t /\ hole_is hs a b c
  | _, _ => False
  end.
(** Figures that can be drawn with: circles, and rectangles and obrounds without hole. *)
Definition drawable (f : figure) : Prop :=
  match f with
  | FCircle _ h => exists a b c, hole_is h a b c
  | FRect _ _ h t | FObround _ _ h t => t = 0 /\ hole_is h 0 0 0
  | FPolygon _ _ _ _ => False
  end.
Definition flashable (f : figure) : Prop := exists s, figure_is f s.
(** The same shape, dimensions and hole. *)
Definition same_figure (f g : figure) : Prop :=
  match f, g with
  | FCircle d h, FCircle d' h' => d = d' /\ h = h'
  | FRect w h k _, FRect w' h' k' _ => w = w' /\ h = h' /\ k = k'
  | FObround w h k _, FObround w' h' k' _ => w = w' /\ h = h' /\ k = k'
  | FPolygon n r t k, FPolygon n' r' t' k' => n = n' /\ r = r' /\ t = t' /\ k = k'
  | _, _ => False
  end.

(** ** What is read for what was rendered *)

Definition aperture_reads (u : unit_) (ap : option figure) (o : option obj) : Prop :=
  forall f, ap = Some f -> exists s, figure_is f s /\ o = Some (mkObj s None Dark u).
(** [dflt]: the polarity of strokes without one of their own. *)
Definition stroke_reads (u : unit_) (dflt : polarity) (s : stroke) (v : vseg) : Prop :=
  match s, v with
  | WLine a b ap pol, VLine a' b' o pol' u' =>
      a' = a /\ b' = b /\ aperture_reads u ap o /\ pol' = or_else pol dflt /\ u' = u
  | WArc a b c d ap q pol, VArc a' b' c' d' o q' pol' u' =>
      a' = a /\ b' = b /\ c' = Some c /\ d' = d /\ q' = q /\ aperture_reads u ap o /\ pol' = or_else pol dflt /\ u' = u
  | _, _ => False
  end.
Definition reads_as (u : unit_) (x : item) (m : mark) : Prop :=
  match i_thing x, m with
  | TStroke s, Stroke v => stroke_reads u Dark s v
  | TRegion l pol, Fill l' pol' u' => Forall2 (stroke_reads u (or_else pol Dark)) l l' /\ pol' = or_else pol Dark /\ u' = u
  | TFlash f p pol, Stamp o => exists s, figure_is f s /\ o = mkObj s (Some p) (or_else pol Dark) u
  | _, _ => False
  end.

(** ** Primitives that survive *)

Definition start_of (s : stroke) : point := match s with WLine a _ _ _ => a | WArc a _ _ _ _ _ _ => a end.
Definition end_of (s : stroke) : point := match s with WLine _ b _ _ => b | WArc _ b _ _ _ _ _ => b end.
Definition aperture_of_stroke (s : stroke) : option figure := match s with WLine _ _ a _ => a | WArc _ _ _ _ a _ _ => a end.
Definition polarity_of_stroke (s : stroke) : option polarity := match s with WLine _ _ _ p => p | WArc _ _ _ _ _ _ p => p end.
(** Lines of positive length; arcs whose centre the reader finds again; apertures that can be drawn with. *)
Definition supported_stroke (fc : centre_fun) (s : stroke) : Prop :=
  (forall f, aperture_of_stroke s = Some f -> drawable f) /\
  match s with
  | WLine a b _ _ => a <> b
  | WArc a b c d _ q _ => match q with MultiQ => True | SingleQ => fc d a b (fst c - fst a, snd c - snd a) = Some c end
  end.
Fixpoint connected (l : list stroke) : Prop :=
  match l with s :: ((t :: _) as r) => start_of t = end_of s /\ connected r | _ => True end.
(** Strokes with an aperture; regions whose outline is connected, with the region's polarity throughout;
    flashes of proper figures. *)
Definition supported (fc : centre_fun) (o : options) (x : item) : Prop :=
  match i_thing x with
  | TStroke s => supported_stroke fc s /\ aperture_of_stroke s <> None
  | TRegion l pol =>
      l <> [] /\ connected l /\ Forall (supported_stroke fc) l /\
      Forall (fun s => polarity_of_stroke s = None \/ polarity_of_stroke s = Some (or_else pol Dark)) l /\
      (explicit_region_move_end o = true -> (2 <= List.length l)%nat)
  | TFlash f _ _ => flashable f
  | TDrill | TSlot => False
  end.

(** ** Primitives that also survive being written as text with settings [st] *)

Definition point_on_grid (st : pset) (p : point) : Prop := on_grid st (fst p) /\ on_grid st (snd p).
Definition holes_exact (h : holes) : Prop :=
  let '(a, b, c) := h in Forall (fun o => forall v, o = Some v -> at_most_digits 4 v) [a; b; c].
Definition figure_exact (f : figure) : Prop :=
  match f with
  | FCircle d h => at_most_digits 4 d /\ holes_exact h
  | FRect w k h _ | FObround w k h _ => at_most_digits 4 w /\ at_most_digits 4 k /\ holes_exact h
  | FPolygon n r t h => at_most_digits 4 (zq n) /\ at_most_digits 4 (r * zq 2) /\ at_most_digits 4 t /\ holes_exact h
  end.
Definition stroke_exact (st : pset) (s : stroke) : Prop :=
  point_on_grid st (start_of s) /\ point_on_grid st (end_of s) /\
  (forall f, aperture_of_stroke s = Some f -> figure_exact f) /\
  match s with WArc a _ c _ _ _ _ => point_on_grid st (fst c - fst a, snd c - snd a) | _ => True end.
Definition item_exact (st : pset) (x : item) : Prop :=
  (forall t, i_comment x = Some t -> Forall (fun x => ~ In x (T "*%" ++ [nl; cr])) t) /\
  match i_thing x with
  | TStroke s => stroke_exact st s
  | TRegion l _ => Forall (stroke_exact st) l
  | TFlash f p _ => figure_exact f /\ point_on_grid st p
  | TDrill | TSlot => True
  end.

(** Rendering [items] with a new context with settings [st] gives a file whose statements, evaluated, are
    the items, in order, in units [u]. *)
Definition round_trips (fc : centre_fun) (o : options) (st : pset) (u : unit_) (items : list item) : Prop :=
  exists c g l' ms, render_all o items (new_context st) = Ok c /\
    evaluate_all fc g_init (statements c) = Ok (g, l') /\ shown g = map Some ms /\ Forall2 (reads_as u) items ms.

(** The D-codes that statements define. *)
Definition codes (l : list stmt) : list Z := flat_map (fun s => match s with SAD d _ _ => [d] | _ => [] end) l.
