(** The centre of arcs in single quadrant mode. *)
From Coq Require Import Lra.
From Verif Require Import GeomModel GeomSpec GeomProofs CenterModel CenterSpec CenterProofs.
Import ListNotations.
Open Scope R_scope.
Open Scope list_scope.

(** ** C100 *)
(** In multi quadrant mode the offsets lead from the start to the centre. *)
Theorem C100_multi : forall d s e o, find_center MultiQuadrant d s e o = Some (fst s + fst o, snd s + snd o).
Proof. reflexivity. Qed.
Print Assumptions C100_multi.

(** For an arc of at most 90 degrees whose centre has the given distances from the start, this centre is found. *)
Definition C100_claim : Prop := forall d s e o c r f l, quarter_arc d s e o c r f l -> find_center SingleQuadrant d s e o = Some c.
(** It holds for all clockwise arcs. *)
Theorem C100_clockwise_partial : forall s e o c r f l, quarter_arc Clockwise s e o c r f l -> find_center SingleQuadrant Clockwise s e o = Some c.
Proof. exact cw_lemma. Qed.
Print Assumptions C100_clockwise_partial.
(** It holds for counterclockwise arcs which do not pass through, or end at, the right end of their circle, unless they go from a point to one of the same height
    to the left of it. *)
Theorem C100_counterclockwise_partial : forall s e o c r f l, quarter_arc Counterclockwise s e o c r f l -> 0 <= f -> f + l < 2 * PI -> (snd s <> snd e \/ fst s < fst e) ->
  find_center SingleQuadrant Counterclockwise s e o = Some c.
Proof. exact ccw_lemma. Qed.
Print Assumptions C100_counterclockwise_partial.
(** In all other cases it is false. *)
Theorem C100_right_refuted : forall s e o c r f l, quarter_arc Counterclockwise s e o c r f l -> 0 <= f < 2 * PI -> 2 * PI <= f + l ->
  find_center SingleQuadrant Counterclockwise s e o <> Some c.
Proof. exact ccw_right. Qed.
Print Assumptions C100_right_refuted.
Theorem C100_top_refuted : forall s e o c r f l, quarter_arc Counterclockwise s e o c r f l -> snd s = snd e -> fst e < fst s ->
  find_center SingleQuadrant Counterclockwise s e o = Some (fst c, 2 * snd s - snd c) /\ c <> (fst c, 2 * snd s - snd c).
Proof. exact ccw_top_wrong. Qed.
Print Assumptions C100_top_refuted.
(** There is only one such centre. *)
Theorem C100_unique : forall d s e o c r f l c' r' f' l', quarter_arc d s e o c r f l -> quarter_arc d s e o c' r' f' l' -> c' = c.
Proof. exact center_unique. Qed.
Print Assumptions C100_unique.

(** Quarters of circles. *)
Example C100_ex_clockwise : quarter_arc Clockwise (0, 1) (1, 0) (0, 1) (0, 0) 1 (PI / 2) (PI / 2).
Proof.
  pose proof PI_RGT_0. constructor; unfold distance_is; cbn [fst snd]; try lra. split; [lra|]. split; [lra|]. unfold at_angle. cbn. replace (PI / 2 - PI / 2) with 0 by ring.
  rewrite cos_PI2, sin_PI2, cos_0, sin_0. split; apply pt_eq; ring.
Qed.
Example C100_ex_counterclockwise : quarter_arc Counterclockwise (1, 0) (0, 1) (1, 0) (0, 0) 1 0 (PI / 2) /\ 0 + PI / 2 < 2 * PI /\ snd (1, 0) <> snd (0, 1).
Proof.
  pose proof PI_RGT_0. cbn [snd]. split; [|lra]. constructor; unfold distance_is; cbn [fst snd]; try lra. split; [lra|]. split; [lra|]. unfold at_angle. cbn. replace (0 + PI / 2) with (PI / 2) by ring.
  rewrite cos_PI2, sin_PI2, cos_0, sin_0. split; apply pt_eq; ring.
Qed.
(** The lower right quarter of a circle is not drawn about its centre. *)
Example C100_ex_right : quarter_arc Counterclockwise (0, -1) (1, 0) (0, 1) (0, 0) 1 (3 * (PI / 2)) (PI / 2) /\ find_center SingleQuadrant Counterclockwise (0, -1) (1, 0) (0, 1) <> Some (0, 0).
Proof.
  pose proof PI_RGT_0. assert (Q : quarter_arc Counterclockwise (0, -1) (1, 0) (0, 1) (0, 0) 1 (3 * (PI / 2)) (PI / 2)).
  { constructor; unfold distance_is; cbn [fst snd]; try lra. split; [lra|]. split; [lra|]. unfold at_angle. cbn. replace (3 * (PI / 2) + PI / 2) with (2 * PI) by field.
    rewrite cos_3PI2, sin_3PI2, cos_2PI, sin_2PI. split; apply pt_eq; ring. }
  split; [exact Q|]. apply (ccw_right _ _ _ _ _ _ _ Q); lra.
Qed.
(** The top quarter of a circle of radius sqrt 2 is drawn about (0, 2). *)
Example C100_ex_top : quarter_arc Counterclockwise (1, 1) (-1, 1) (1, 1) (0, 0) (sqrt 2) (PI / 4) (PI / 2).
Proof.
  pose proof PI_RGT_0. constructor; unfold distance_is; cbn [fst snd]; try lra. destruct over_the_top_is as (A & B & C & D). split; [exact A|]. split; [exact B|]. split; [exact C|exact D].
Qed.
