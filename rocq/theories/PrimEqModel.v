(** Primitive.__eq__ (gerber/primitives.py:70-71): the dictionaries of the attributes are compared, the memoized
    box among them (59-60).  Simplifications: those of CacheModel; only primitives of one class are compared, and the
    attributes a class does not have are taken to be the same; vertices and segments (61-62) are not looked at. *)
From Coq Require Import Reals List Bool.
From Verif Require Import GeomModel CacheModel.
Open Scope R_scope.

(** primitives.py:70-71 *)
Definition prim_eq (a b : st) : Prop :=
  (forall p, points a p = points b p) /\ (forall n, numbers a n = numbers b n) /\ ap a = ap b /\ dir a = dir b /\ quad a = quad b /\
  rot a = rot b /\ units a = units b /\ cos_t a = cos_t b /\ sin_t a = sin_t b /\ cache a = cache b.
