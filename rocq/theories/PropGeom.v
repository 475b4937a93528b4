(** Properties of the geometry of the primitives: C49, C50, C53, C75, C76, C77. *)
From Coq Require Import Lra.
From Verif Require Import GeomModel GeomSpec GeomProofs.
Import ListNotations.
Open Scope R_scope.
Open Scope list_scope.

(** ** C53: rotation *)
Theorem C53_rotation_keeps_distances : forall p q a c, dist2 (rotate_point p a c) (rotate_point q a c) = dist2 p q.
Proof. exact rotate_isometry. Qed.
Print Assumptions C53_rotation_keeps_distances.
Theorem C53_rotation_fixes_center : forall a c, rotate_point c a c = c.
Proof. exact rotate_center. Qed.
Print Assumptions C53_rotation_fixes_center.
Theorem C53_rotations_add : forall p a b c, rotate_point (rotate_point p a c) b c = rotate_point p (a + b) c.
Proof. exact rotate_add. Qed.
Print Assumptions C53_rotations_add.
Theorem C53_rotation_undone : forall p a c, rotate_point (rotate_point p a c) (- a) c = p.
Proof. exact rotate_back. Qed.
Print Assumptions C53_rotation_undone.
(** Angles are degrees, counterclockwise. *)
Theorem C53_quarter_turn : forall p c, rotate_point p 90 c = (fst c - (snd p - snd c), snd c + (fst p - fst c)).
Proof. exact rotate_quarter. Qed.
Print Assumptions C53_quarter_turn.
Theorem C53_full_turn : forall p c, rotate_point p 360 c = p.
Proof. exact rotate_full. Qed.
Print Assumptions C53_full_turn.
Example C53_sample : rotate_point (5, 1) 90 (2, 1) = (2, 4).
Proof. rewrite rotate_quarter. apply pt_eq; cbn; lra. Qed.

(** ** C49: bounding boxes *)
(** The full statement is false: a rectangle turned by half a turn has a box inside out. *)
Theorem C49_boxes_bound_refuted : exists c rot w h, 0 < w /\ 0 < h /\ ~ encloses (rect_box c rot w h) (turned c rot (oblong w h)).
Proof. exists (0, 0), 180, 2, 1. split; [lra|]. split; [lra|]. exact rect_half_turn. Qed.
Print Assumptions C49_boxes_bound_refuted.
(** It is right exactly when neither the cosine nor the sine of the rotation is negative. *)
Theorem C49_rectangle_rotations : forall c rot w h, 0 < w -> 0 < h ->
  encloses (rect_box c rot w h) (turned c rot (oblong w h)) <-> 0 <= cos (rot * PI / 180) /\ 0 <= sin (rot * PI / 180).
Proof. exact rect_rotated_iff. Qed.
Print Assumptions C49_rectangle_rotations.
(** What holds; missing: rectangles and obrounds turned by other angles. *)
Theorem C49_boxes_bound_partial :
  (forall a b d, 0 <= d -> bounds (line_box_round a b d) (stroke (segment a b) (disc (0, 0) (d / 2)))) /\
  (forall a b w h, 0 <= w -> 0 <= h -> bounds (line_box_rect a b w h) (stroke (segment a b) (oblong w h))) /\
  (forall a b w h, 0 <= w -> 0 <= h -> bounds (line_box_rect a b w h) (stroke (segment a b) (capsule w h))) /\
  (forall c d, 0 <= d -> bounds (circle_box c d) (disc c (d / 2))) /\
  (forall c rot w h, 0 <= w -> 0 <= h -> 0 <= rot <= 90 -> bounds (rect_box c rot w h) (turned c rot (oblong w h))) /\
  (forall c w h, 0 <= w -> 0 <= h -> bounds (rect_box c 0 w h) (turned c 0 (capsule w h))) /\
  (forall c rot w h, 0 <= w -> 0 <= h -> 0 <= rot <= 90 -> encloses (rect_box c rot w h) (turned c rot (capsule w h))) /\
  (forall a b d, 0 <= d -> bounds (slot_box a b d) (stroke (segment a b) (disc (0, 0) (d / 2)))).
Proof.
  exact (conj line_round_bounds (conj line_rect_bounds (conj line_obround_bounds (conj circle_bounds (conj rect_quarter (conj obround_unrotated (conj obround_quarter slot_bounds))))))).
Qed.
Print Assumptions C49_boxes_bound_partial.
Example C49_line_sample : line_box_round (4, 1) (1, 5) 2 = ((0, 5), (0, 6)).
Proof.
  unfold line_box_round, BoxModel.line_box_round, grow, BoxModel.line_box0, half. cbn [fst snd].
  rewrite Rmin_right, Rmax_left, Rmin_left, Rmax_right by lra. apply box_eq; lra.
Qed.
Example C49_rectangle_sample : rect_box (1, 1) 90 4 2 = ((0, 2), (-1, 3)).
Proof.
  unfold rect_box, BoxModel.rect_box, around, aa_width, aa_height, radians, half. replace (90 * (PI / 180)) with (PI / 2) by field.
  rewrite cos_PI2, sin_PI2. apply box_eq; cbn; lra.
Qed.
(** The other flashed shapes. *)
Theorem C49_ellipse : forall c rot w h, bounds (ellipse_box c rot w h) (turned c rot (oval w h)).
Proof. exact ellipse_bounds. Qed.
Print Assumptions C49_ellipse.
Theorem C49_diamond : forall c w h, 0 <= w -> 0 <= h -> bounds (rect_box c 0 w h) (turned c 0 (rhombus w h)).
Proof. exact diamond_unrotated. Qed.
Print Assumptions C49_diamond.
Theorem C49_polygon : forall c n r rot, 0 <= r -> encloses (polygon_box c r) (polygon c n (polygon_vertex c n r rot)).
Proof. exact polygon_encloses. Qed.
Print Assumptions C49_polygon.

(** ** C50: arcs *)
(** A counterclockwise arc from (1,0) to (0,-1) about the origin: three quarters of a turn. *)
Definition three_quarters (q : quadrants) : arc := mkArc (1, 0) (0, -1) (0, 0) Counterclockwise q.
Lemma three_quarters_is q : arc_is (three_quarters q) 1 0 (PI * (3 / 2)).
Proof.
  pose proof PI_RGT_0. split; [lra|]. split; [lra|]. unfold three_quarters, turning. cbn [a_start a_end a_center a_dir].
  rewrite Rplus_0_l, at_0, at_270. split; apply pt_eq; cbn; lra.
Qed.
(** The full statement is false in single-quadrant mode: the top of the arc from 45 to 135 degrees
    is outside its box. *)
Theorem C50_arc_bounds_refuted : exists a r f l, arc_is a r f l /\ l <= PI / 2 /\ a_quad a = SingleQuadrant /\ ~ encloses (arc_box0 a) (on_arc a).
Proof.
  exists over_the_top, (sqrt 2), (PI / 4), (PI / 2). split; [exact over_the_top_is|]. split; [lra|]. split; [reflexivity|]. exact over_the_top_misses.
Qed.
Print Assumptions C50_arc_bounds_refuted.
(** What holds: all multi-quadrant arcs, and single-quadrant arcs which stay in a quadrant. *)
Theorem C50_arc_bounds_partial : forall a,
  (a_quad a = MultiQuadrant /\ exists r f l, arc_is a r f l) \/ (a_quad a = SingleQuadrant /\ in_one_quadrant a) ->
  bounds (arc_box0 a) (on_arc a).
Proof. exact (fun a H => match H with or_introl (conj Q (ex_intro _ r (ex_intro _ f (ex_intro _ l A)))) => arc0_bounds a r f l Q A | or_intror (conj Q A) => quadrant_bounds a Q A end). Qed.
Print Assumptions C50_arc_bounds_partial.
Example C50_sample : bounds (arc_box0 (three_quarters MultiQuadrant)) (on_arc (three_quarters MultiQuadrant)).
Proof. apply C50_arc_bounds_partial. left. split; [reflexivity|]. exists 1, 0, (PI * (3 / 2)). apply three_quarters_is. Qed.
Example C50_sample_point : on_arc (three_quarters MultiQuadrant) (-1, 0).
Proof.
  exists 1, 0, (PI * (3 / 2)), PI. pose proof PI_RGT_0. split; [apply three_quarters_is|]. split; [lra|].
  cbn [three_quarters a_center a_dir turning]. rewrite Rplus_0_l, at_180. apply pt_eq; cbn; lra.
Qed.
Example C50_quadrant_sample : in_one_quadrant (mkArc (1, 0) (0, -1) (0, 0) Clockwise SingleQuadrant).
Proof.
  exists 1, (2 * PI), (PI / 2), 3%Z. pose proof PI_RGT_0. unfold arc_is, turning. cbn [a_start a_end a_center a_dir].
  split; [|lra]. split; [lra|]. split; [lra|]. split.
  - replace (2 * PI) with (0 + 2 * IZR 1 * PI) by ring. rewrite at_angle_k, at_0. apply pt_eq; cbn; lra.
  - replace (2 * PI - PI / 2) with (PI * (3 / 2)) by field. rewrite at_270. apply pt_eq; cbn; lra.
Qed.

(** ** C75: arcs with an aperture *)
(** With an aperture which has a width and a height the box is larger than needed. *)
Theorem C75_stroked_arc_refuted : exists a r f l w h, arc_is a r f l /\ a_quad a = MultiQuadrant /\ 0 < w /\ 0 < h /\
  ~ touches (arc_box a (Sized w h)) (stroke (on_arc a) (oblong w h)).
Proof.
  exists (three_quarters MultiQuadrant), 1, 0, (PI * (3 / 2)), 1, 1. split; [apply three_quarters_is|]. split; [reflexivity|]. split; [lra|]. split; [lra|].
  exact (arc_sized_loose (three_quarters MultiQuadrant) _ _ _ 1 1 eq_refl (three_quarters_is MultiQuadrant) Rlt_0_1 (Rlt_le _ _ Rlt_0_1)).
Qed.
Print Assumptions C75_stroked_arc_refuted.
Theorem C75_round_aperture : forall a r f l ar, a_quad a = MultiQuadrant -> arc_is a r f l -> 0 <= ar ->
  bounds (arc_box a (Round ar)) (stroke (on_arc a) (disc (0, 0) ar)).
Proof. exact arc_round_bounds. Qed.
Print Assumptions C75_round_aperture.
Theorem C75_sized_aperture_partial : forall a r f l w h, a_quad a = MultiQuadrant -> arc_is a r f l -> 0 <= w -> 0 <= h ->
  encloses (arc_box a (Sized w h)) (stroke (on_arc a) (oblong w h)).
Proof. exact arc_sized_encloses. Qed.
Print Assumptions C75_sized_aperture_partial.
Example C75_sample : bounds (arc_box (three_quarters MultiQuadrant) (Round (1 / 2))) (stroke (on_arc (three_quarters MultiQuadrant)) (disc (0, 0) (1 / 2))).
Proof. apply (C75_round_aperture _ 1 0 (PI * (3 / 2))); [reflexivity|apply three_quarters_is|lra]. Qed.

(** ** C76: the sweep *)
(** The full statement is false: a counterclockwise quarter of a turn which ends at 0 degrees is
    said to sweep three quarters; ... *)
Definition to_zero : arc := mkArc (0, -1) (1, 0) (0, 0) Counterclockwise MultiQuadrant.
Lemma to_zero_is : arc_is to_zero 1 (PI * (3 / 2)) (PI / 2).
Proof.
  pose proof PI_RGT_0. split; [lra|]. split; [lra|]. unfold to_zero, turning. cbn [a_start a_end a_center a_dir].
  replace (PI * (3 / 2) + PI / 2) with (0 + 2 * IZR 1 * PI) by field. rewrite at_angle_k, at_0, at_270. split; apply pt_eq; cbn; lra.
Qed.
Theorem C76_sweep_refuted : exists a r f l, arc_is a r f l /\ l = PI / 2 /\ sweep_angle a = PI * (3 / 2).
Proof.
  exists to_zero, 1, (PI * (3 / 2)), (PI / 2). split; [exact to_zero_is|]. split; [reflexivity|]. pose proof PI_RGT_0.
  rewrite (sweep_lemma to_zero 1 _ _ to_zero_is) by lra. cbn [to_zero a_dir]. fold to_zero.
  rewrite (theta0_eq to_zero 1 (PI * (3 / 2))) by (try lra; apply to_zero_is). destruct (Rlt_dec _ _); lra.
Qed.
Print Assumptions C76_sweep_refuted.
(** ... and a full circle sweeps nothing. *)
Theorem C76_full_circle_refuted : forall a r f, arc_is a r f (2 * PI) -> sweep_angle a = 0.
Proof. exact sweep_full. Qed.
Print Assumptions C76_full_circle_refuted.
(** Below a full turn: right for clockwise arcs and for counterclockwise ones which do not reach 0
    degrees; otherwise the rest of the circle is returned. *)
Theorem C76_sweep_partial : forall a r f l, arc_is a r f l -> l < 2 * PI ->
  sweep_angle a = match a_dir a with
                  | Clockwise => l
                  | Counterclockwise => if Rlt_dec (theta0 a + l) (2 * PI) then l else 2 * PI - l
                  end.
Proof. exact sweep_lemma. Qed.
Print Assumptions C76_sweep_partial.
Example C76_sample : sweep_angle (three_quarters MultiQuadrant) = PI * (3 / 2).
Proof.
  pose proof PI_RGT_0. rewrite (C76_sweep_partial _ _ _ _ (three_quarters_is MultiQuadrant)) by lra. cbn [three_quarters a_dir]. fold (three_quarters MultiQuadrant).
  rewrite (theta0_eq _ 1 0) by (try lra; apply (three_quarters_is MultiQuadrant)). destruct (Rlt_dec _ _); lra.
Qed.
Example C76_full_sample : arc_is (mkArc (1, 0) (1, 0) (0, 0) Counterclockwise MultiQuadrant) 1 0 (2 * PI).
Proof.
  pose proof PI_RGT_0. split; [lra|]. split; [lra|]. unfold turning. cbn [a_start a_end a_center a_dir].
  replace (0 + 2 * PI) with (0 + 2 * IZR 1 * PI) by ring. rewrite at_angle_k, at_0. split; apply pt_eq; cbn; lra.
Qed.

(** ** C77: groups *)
Theorem C77_group_box : forall boxes shapes b, Forall2 bounds boxes shapes -> boxes_box boxes = Some b -> bounds b (all_shapes shapes).
Proof. exact boxes_bounds. Qed.
Print Assumptions C77_group_box.
Theorem C77_surrounded : forall b s, encloses b s -> encloses b (surrounded s).
Proof. exact surrounded_inside. Qed.
Print Assumptions C77_surrounded.
Example C77_sample : exists b, boxes_box [line_box0 (0, 0) (4, 0); line_box0 (4, 0) (4, 3); line_box0 (4, 3) (0, 0)] = Some b /\
  bounds b (all_shapes [segment (0, 0) (4, 0); segment (4, 0) (4, 3); segment (4, 3) (0, 0)]) /\
  surrounded (all_shapes [segment (0, 0) (4, 0); segment (4, 0) (4, 3); segment (4, 3) (0, 0)]) (3, 1).
Proof.
  eexists. split; [reflexivity|]. split.
  - apply (C77_group_box [line_box0 (0, 0) (4, 0); line_box0 (4, 0) (4, 3); line_box0 (4, 3) (0, 0)]); [|reflexivity]. repeat (constructor; [apply segment_bounds|]). constructor.
  - assert (S : forall x y t, 0 <= t <= 1 -> x = 4 * t -> y = 3 * t -> segment (4, 3) (0, 0) (x, y)).
    { intros x y t Ht -> ->. exists (1 - t). split; [lra|]. apply pt_eq; cbn; ring. }
    split.
    + exists (0, 0), (4, 3). split; [eexists; split; [right; right; left; reflexivity|apply (S _ _ 0); lra]|]. split; [eexists; split; [right; right; left; reflexivity|apply (S _ _ 1); lra]|cbn; lra].
    + exists (0, 0), (4, 3). split; [eexists; split; [right; right; left; reflexivity|apply (S _ _ 0); lra]|]. split; [eexists; split; [right; right; left; reflexivity|apply (S _ _ 1); lra]|cbn; lra].
Qed.
