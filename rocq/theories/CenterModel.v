(** Model of rs274x.py:727-781 _find_center.  Simplification: python's floats are exact real numbers here. *)
From Coq Require Import Bool.
From Verif Require Import GeomModel.
Import ListNotations.
Open Scope R_scope.
Open Scope list_scope.
Open Scope bool_scope.

(** utils.py:309-313 *)
Definition sq_distance (p q : pt) : R :=
  let d1 := fst p - fst q in let d2 := snd p - snd q in d1 * d1 + d2 * d2.
(** sys.maxsize *)
Definition maxsize : R := 9223372036854775807.
(** rs274x.py:744-747 *)
Definition factors : list (R * R) := [(1, 1); (1, -1); (-1, 1); (-1, -1)].
Definition test_center (start offsets factors : pt) : pt :=
  (fst start + fst offsets * fst factors, snd start + snd offsets * snd factors).
(** 749-763: the same computation as Arc.sweep_angle (primitives.py:397-406). *)
Definition sweep (d : direction) (start end_ c : pt) : R := sweep_angle (mkArc start end_ c d SingleQuadrant).
(** 765-768 *)
Definition radius_error (start end_ c : pt) : R := Rabs (sq_distance start c - sq_distance end_ c).
(** 774-778 *)
Definition try_center (d : direction) (start end_ : pt) (st : option pt * R) (c : pt) : option pt * R :=
  let s := sweep d start end_ c in
  if ltb (radius_error start end_ c) (snd st) && (leb 0 s && leb s (PI / 2 + 1 / 1000000)) then (Some c, radius_error start end_ c) else st.
(** 727-781 *)
Definition find_center (q : quadrants) (d : direction) (start end_ offsets : pt) : option pt :=
  match q with
  | SingleQuadrant => fst (fold_left (try_center d start end_) (map (test_center start offsets) factors) (None, maxsize))
  | MultiQuadrant => Some (fst start + fst offsets, snd start + snd offsets)
  end.
