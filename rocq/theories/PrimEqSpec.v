(** Primitives with the same public attributes. *)
From Coq Require Import Reals List Bool.
From Verif Require Import GeomModel CacheModel.
Open Scope R_scope.

Definition looks_like (a b : st) : Prop :=
  (forall p, points a p = points b p) /\ (forall n, numbers a n = numbers b n) /\ ap a = ap b /\ dir a = dir b /\ quad a = quad b /\
  rot a = rot b /\ units a = units b.
