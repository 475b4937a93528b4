(** When a primitive of a macro stands for a shape, and which shapes macros can express. *)
From Verif Require Import PyBase QcLib NumModel NumSpec FloatCodec GerberText GerberEval MacroModel AmModel AmSpec WriterModel AmRenderModel.
Open Scope Qc_scope.
Open Scope list_scope.

(** Where the shapes of a group are placed; a group without position is at the origin. *)
Definition origin_of (position : option point) : point := match position with Some p => p | None => (0, 0) end.
(** A point seen from [o]. *)
Definition seen_from (o p : point) : point := (fst p - fst o, snd p - snd o).
Definition empty_hole (h : holes) : Prop :=
  let '(d, w, k) := h in (d = None \/ d = Some 0) /\ (w = None \/ w = Some 0) /\ (k = None \/ k = Some 0).
(** Lines from [s] through [l]. *)
Fixpoint lines_through (s : point) (l : list point) : list (point * point) :=
  match l with [] => [] | p :: r => (s, p) :: lines_through p r end.

(** The primitive [p] of a macro flashed at [o] shows the shape [x]: the same kind and size at the same place, dark or
    clear like the shape.  Primitives have no holes; a line has no counterpart, since the ends of strokes are those of
    the aperture and a vector line ends straight. *)
Definition stands_for (o : point) (x : part) (p : amprim) : Prop :=
  match x, p with
  | GCircle c d hs pol, ACircle on d' c' => c' = seen_from o c /\ d' = d /\ empty_hole hs /\ (on = true <-> pol = Dark)
  | GRect c w h r hs pol, ACenter on w' h' c' r' => c' = seen_from o c /\ w' = w /\ h' = h /\ r' = r /\ empty_hole hs /\ (on = true <-> pol = Dark)
  | GPoly c n radius r hs pol, APolygon on n' c' d r' =>
      c' = seen_from o c /\ n' = n /\ d = radius + radius /\ r' = r /\ empty_hole hs /\ (on = true <-> pol = Dark)
  | GOutline lines pol, AOutline on s l r =>
      lines_through s l = map (fun k => (seen_from o (fst k), seen_from o (snd k))) lines /\ List.last l s = s /\ r = 0 /\ (on = true <-> pol = Dark)
  | _, _ => False
  end.

(** A decimal of at most six digits, six of them after the point, and no exponent. *)
Definition micro (v : Qc) : Prop :=
  exists m k, (k <= 6)%nat /\ v = rnd53 (grid m k) /\ (Z.abs m < 10 ^ 6)%Z /\
    (m = 0%Z \/ (Q2Qc (1 # 10000) <= qabs (grid m k) /\ qabs (grid m k) < zq (10 ^ 6))).
Definition micro_point (p : point) : Prop := micro (fst p) /\ micro (snd p).
(** Dark shapes without holes, rectangles not turned, outlines closed, numbers that the text of a macro keeps. *)
Definition expressible (o : point) (x : part) : Prop :=
  match x with
  | GCircle c d hs pol => pol = Dark /\ empty_hole hs /\ plain_number d /\ plain_point (seen_from o c)
  | GRect c w h r hs pol => pol = Dark /\ empty_hole hs /\ r = 0 /\ plain_number w /\ plain_number h /\ short_point 4 (seen_from o c)
  | GPoly c n radius r hs pol =>
      pol = Dark /\ empty_hole hs /\ (3 <= n <= 12)%Z /\ short_number 4 (radius + radius) /\ plain_number r /\ short_point 4 (seen_from o c)
  | GOutline lines pol => pol = Dark /\ small_count (Z.of_nat (List.length lines)) /\
      exists s l, lines = lines_through s l /\ l <> [] /\ List.last l s = s /\ Forall (fun p => micro_point (seen_from o p)) (s :: l)
  | GLine _ _ _ _ => False
  end.
(** Lines of rectangles and obrounds, whose numbers the text of a macro keeps; and the bar between the ends of the line,
    as wide as the aperture (also where the line runs across its height). *)
Definition plain_line (o : point) (x : part) : Prop :=
  match x with
  | GLine a b (FRect w _ _ _) _ | GLine a b (FObround w _ _ _) _ => plain_number w /\ plain_point (seen_from o a) /\ plain_point (seen_from o b)
  | _ => False
  end.
Definition bar_for (o : point) (x : part) (p : amprim) : Prop :=
  match x, p with
  | GLine a b (FRect w _ _ _) _, AVector c on w' s e r | GLine a b (FObround w _ _ _) _, AVector c on w' s e r =>
      (c = 2%Z \/ c = 20%Z) /\ on = true /\ w' = w /\ s = seen_from o a /\ e = seen_from o b /\ r = 0
  | _, _ => False
  end.
