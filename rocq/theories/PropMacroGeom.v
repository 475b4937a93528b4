(** Properties C87 to C92: the shapes the primitives of an aperture macro turn into. *)
From Verif Require Import PyBase NumModel AmModel GeomModel GeomSpec HullModel HullSpec HullProofs MacroGeomModel MacroGeomSpec MacroGeomProofs.
From Coq Require Import List ZArith QArith Qcanon Reals Lra Lia.
Import ListNotations.
Open Scope R_scope.

(** C87: centre lines. *)
Theorem C87_center_line_partial : forall on w h c r, (0 < w)%Qc -> (0 < h)%Qc -> c = (0, 0)%Qc \/ r = 0%Qc ->
  exists lines, to_primitive (ACenter on w h c r) = Ok [(on, ShowOutline lines)] /\
    forall p, left_of_all (corners lines) p <-> center_line_area (real_pt c) (real w) (real h) (real r) p.
Proof.
  intros on w h c r W H O. destruct (center_line_right (real_pt c) (real w) (real h) (real r) (real_pos w W) (real_pos h H) (unmoved c r O)) as (lines & E & L).
  exists lines. split; [apply single_ok, E|exact L].
Qed.
Print Assumptions C87_center_line_partial.
Theorem C87_about_own_center : forall on w h c r, (0 < w)%Qc -> (0 < h)%Qc ->
  exists lines, to_primitive (ACenter on w h c r) = Ok [(on, ShowOutline lines)] /\
    forall p, left_of_all (corners lines) p <-> turned (real_pt c) (real r) (oblong (real w) (real h)) p.
Proof.
  intros on w h c r W H. destruct (center_line_drawn (real_pt c) (real w) (real h) (real r) (real_pos w W) (real_pos h H)) as (lines & E & L).
  exists lines. split; [apply single_ok, E|exact L].
Qed.
Print Assumptions C87_about_own_center.
Theorem C87_center_line_refuted : exists on w h c r lines p, (0 < w)%Qc /\ (0 < h)%Qc /\
  to_primitive (ACenter on w h c r) = Ok [(on, ShowOutline lines)] /\
  left_of_all (corners lines) p /\ ~ center_line_area (real_pt c) (real w) (real h) (real r) p.
Proof. exact center_line_wrong. Qed.
Print Assumptions C87_center_line_refuted.
Example C87_example : center_line_area origin 4 2 90 (1 / 2, 3 / 2).
Proof.
  apply turned_is. unfold unrotate. rewrite rotate_is. unfold origin, moved, oblong. cbn [fst snd]. replace (- (90) * PI / 180) with (- (PI / 2)) by field.
  rewrite cos_neg, sin_neg, cos_PI2, sin_PI2. lra.
Qed.

(** C88: vector lines. *)
Theorem C88_vector_line_partial : forall code on w s e r, (0 < w)%Qc -> s <> e ->
  exists lines, to_primitive (AVector code on w s e r) = Ok [(on, ShowOutline lines)] /\
    (forall p, left_of_all (corners lines) p <-> turned origin (real r) (stroke (segment (real_pt s) (real_pt e)) (oblong (real w) (real w))) p) /\
    forall p, vector_line_area (real_pt s) (real_pt e) (real w) (real r) p -> left_of_all (corners lines) p.
Proof.
  intros code on w s e r W N. destruct (vector_line_covers (real_pt s) (real_pt e) (real w) (real r) (real_pos w W) (fun E => N (real_pt_inj s e E))) as (lines & E & D & C & _).
  exists lines. split; [apply single_ok, E|]. split; [exact D|exact C].
Qed.
Print Assumptions C88_vector_line_partial.
Theorem C88_vector_line_refuted : forall code on w s e r, (0 < w)%Qc -> s <> e ->
  exists lines p, to_primitive (AVector code on w s e r) = Ok [(on, ShowOutline lines)] /\
    left_of_all (corners lines) p /\ ~ vector_line_area (real_pt s) (real_pt e) (real w) (real r) p.
Proof.
  intros code on w s e r W N. destruct (vector_line_covers (real_pt s) (real_pt e) (real w) (real r) (real_pos w W) (fun E => N (real_pt_inj s e E))) as (lines & E & _ & _ & (p & P)).
  exists lines, p. split; [apply single_ok, E|exact P].
Qed.
Print Assumptions C88_vector_line_refuted.
Example C88_example : (0 < 1)%Qc /\ ((0, 0)%Qc : Qc * Qc) <> (Q2Qc 3, Q2Qc 4) /\ ribbon (0, 0) (3, 4) 1 (3 / 2 - 4 / 10, 2 + 3 / 10).
Proof.
  split; [reflexivity|]. split; [discriminate|]. exists (1 / 2), (1 / 2). split; [lra|]. split; [lra|]. cbn [fst snd].
  replace (dist2 (0, 0) (3, 4)) with (5 * 5) by (unfold dist2; cbn; ring). rewrite sqrt_square by lra. f_equal; lra.
Qed.

(** C89: outlines. *)
Theorem C89_outline : forall on start points r, points <> [] -> last points (0, 0)%Qc = start ->
  exists start' points' lines, to_primitive (AOutline on start points r) = Ok [(on, ShowOutline lines)] /\
    turn (real r) (real_pt start) start' /\ Forall2 (turn (real r)) (map real_pt points) points' /\ joins start' points' lines.
Proof.
  intros on start points r N E. destruct (outline_drawn (real_pt start) (map real_pt points) (real r)) as (s & p & lines & A & B).
  - destruct points; [congruence|discriminate].
  - rewrite real_last by exact N. now rewrite E.
  - exists s, p, lines. split; [apply single_ok, A|exact B].
Qed.
Print Assumptions C89_outline.
Theorem C89_open : forall on start points r, points <> [] -> last points (0, 0)%Qc <> start ->
  to_primitive (AOutline on start points r) = Err ValueError.
Proof.
  intros on start points r N E. cbn [to_primitive]. rewrite outline_open; [reflexivity|destruct points; [congruence|discriminate]|].
  rewrite real_last by exact N. intro Q. apply E. now apply real_pt_inj.
Qed.
Print Assumptions C89_open.
Example C89_example : last [(1, 0); (1, 1); (0, 0)]%Qc (0, 0)%Qc = (0, 0)%Qc /\ last [(1, 0); (1, 1)]%Qc (0, 0)%Qc <> (0, 0)%Qc.
Proof. split; [reflexivity|discriminate]. Qed.

(** C90: circles and polygons. *)
Theorem C90_circle : forall on d p, to_primitive (ACircle on d p) = Ok [(on, ShowCircle (real_pt p) (real d))].
Proof. reflexivity. Qed.
Print Assumptions C90_circle.
Theorem C90_polygon_partial : forall on n p d r, (0 < n)%Z -> p = (0, 0)%Qc \/ r = 0%Qc ->
  exists c n' radius rotation, to_primitive (APolygon on n p d r) = Ok [(on, ShowPolygon c n' radius rotation)] /\ n' = n /\
    forall i, (i < Z.to_nat n)%nat -> turn (real r) (polygon_corner (real_pt p) n (real d) i) (polygon_vertex c (Z.to_nat n') radius rotation i).
Proof.
  intros on n p d r N O. exists (real_pt p), n, (real d / 2), (real r). split; [reflexivity|]. split; [reflexivity|]. intros i _. apply polygon_turned; [exact N|now apply unmoved].
Qed.
Print Assumptions C90_polygon_partial.
Theorem C90_polygon_refuted : exists on n p d r c n' radius rotation, (3 <= n)%Z /\
  to_primitive (APolygon on n p d r) = Ok [(on, ShowPolygon c n' radius rotation)] /\
  forall i, (i < Z.to_nat n)%nat -> forall j, ~ turn (real r) (polygon_corner (real_pt p) n (real d) i) (polygon_vertex c (Z.to_nat n') radius rotation j).
Proof. exact polygon_wrong. Qed.
Print Assumptions C90_polygon_refuted.

(** C91: thermals. *)
Theorem C91_thermal_partial : forall p outer inner gap r, (0 <= gap)%Qc -> (0 < inner)%Qc -> (inner <= outer)%Qc -> (gap * gap + gap * gap <= inner * inner)%Qc -> p = (0, 0)%Qc \/ r = 0%Qc ->
  exists shapes, to_primitive (AThermal p outer inner gap r) = Ok (map (pair true) shapes) /\
  Forall2 (fun k s => exists lines, s = ShowOutline lines /\
    (forall c, In c (corners lines) -> turned origin (real r) (moved (real_pt p) (turned origin k (quarter (real outer) (real inner) (real gap)))) c) /\
    forall q, quarter_corner (real outer) (real inner) (real gap) q -> exists c, In c (corners lines) /\ turned origin (real r) (moved (real_pt p) (turned origin k (eq q))) c) [0; 90; 180; 270] shapes.
Proof. exact thermal_right. Qed.
Print Assumptions C91_thermal_partial.
Theorem C91_about_own_center : forall p outer inner gap r, (0 <= gap)%Qc -> (0 < inner)%Qc -> (inner <= outer)%Qc -> (gap * gap + gap * gap <= inner * inner)%Qc ->
  exists shapes, to_primitive (AThermal p outer inner gap r) = Ok (map (pair true) shapes) /\
  Forall2 (fun k s => exists lines, s = ShowOutline lines /\
    (forall c, In c (corners lines) -> turned (real_pt p) (real r + k) (quarter (real outer) (real inner) (real gap)) c) /\
    forall q, quarter_corner (real outer) (real inner) (real gap) q -> exists c, In c (corners lines) /\ turned (real_pt p) (real r + k) (eq q) c) [0; 90; 180; 270] shapes.
Proof. exact thermal_own. Qed.
Print Assumptions C91_about_own_center.
Theorem C91_thermal_refuted :
  (forall p outer gap r, to_primitive (AThermal p outer 0%Qc gap r) = Err ZeroDivisionError) /\
  (forall p outer inner gap r, (0 < inner)%Qc -> (inner < gap)%Qc -> to_primitive (AThermal p outer inner gap r) = Err ValueError).
Proof. exact thermal_fails. Qed.
Print Assumptions C91_thermal_refuted.
Theorem C91_rotation_refuted : exists p outer inner gap r shapes, (0 <= gap)%Qc /\ (0 < inner)%Qc /\ (inner <= outer)%Qc /\ (gap * gap + gap * gap <= inner * inner)%Qc /\
  to_primitive (AThermal p outer inner gap r) = Ok (map (pair true) shapes) /\ List.length shapes = 4%nat /\
  forall lines c, In (ShowOutline lines) shapes -> In c (corners lines) -> forall k, ~ turned origin (real r) (moved (real_pt p) (turned origin k (quarter (real outer) (real inner) (real gap)))) c.
Proof. exact thermal_wrong. Qed.
Print Assumptions C91_rotation_refuted.
Example C91_example : (0 <= Q2Qc 3)%Qc /\ (0 < Q2Qc 5)%Qc /\ (Q2Qc 5 <= Q2Qc 8)%Qc /\ (Q2Qc 3 * Q2Qc 3 + Q2Qc 3 * Q2Qc 3 <= Q2Qc 5 * Q2Qc 5)%Qc /\ quarter 8 5 3 (2, 3 / 2) /\ quarter_corner 8 5 3 (2, 3 / 2).
Proof. repeat split; try discriminate; try reflexivity; cbn [fst snd]; lra. Qed.

(** C92: nothing is left out. *)
Theorem C92_group_partial : forall prims shapes, group_shapes prims = Ok shapes ->
  exists each, Forall2 (fun p l => to_primitive p = Ok l) prims each /\ shapes = List.concat each.
Proof. exact group_each. Qed.
Print Assumptions C92_group_partial.
Theorem C92_group_refuted : forall on p d ring gap rings t l r w h,
  to_primitive (AMoire p d ring gap rings t l r) = Ok [] /\ to_primitive (ALower on w h p r) = Ok [].
Proof. split; reflexivity. Qed.
Print Assumptions C92_group_refuted.
Example C92_example : exists shapes, group_shapes [ACircle true 1%Qc (0, 0)%Qc; AMoire (0, 0)%Qc (Q2Qc 5) 1%Qc 1%Qc 2 1%Qc 1%Qc 0%Qc; APolygon false 6 (1, 0)%Qc 1%Qc 0%Qc] = Ok shapes /\ map fst shapes = [true; false].
Proof. eexists. split; reflexivity. Qed.
