(** The centre of an arc in single quadrant mode: the offsets are lengths whose signs are to be found, such that the arc
    covers at most 90 degrees. *)
From Verif Require Import GeomModel GeomSpec.
Open Scope R_scope.

Definition distance_is (a b x : R) : Prop := b = a + x \/ b = a - x.
(** [c] is the centre of an arc of radius [r] from [start] at angle [f] to [end_], [l] radians on, and the offsets are those of the centre from the start. *)
Record quarter_arc (d : direction) (start end_ offsets c : pt) (r f l : R) : Prop := mkQuarter {
  q_arc : arc_is (mkArc start end_ c d SingleQuadrant) r f l;
  q_small : l <= PI / 2;
  q_x : 0 <= fst offsets /\ distance_is (fst start) (fst c) (fst offsets);
  q_y : 0 <= snd offsets /\ distance_is (snd start) (snd c) (snd offsets) }.
