(** Properties C111 to C113: corners of flashed primitives. *)
From Verif Require Import PyBase GeomModel GeomSpec HullSpec MacroGeomSpec VertModel VertSpec VertProofs.
From Coq Require Import List Reals Lra.
Import ListNotations.
Open Scope R_scope.

(** ** C111: rectangles and diamonds.  The full statement (for every position and rotation) is false. *)
Theorem C111_rectangle_partial : forall p w h rotation, 0 < w -> 0 < h -> p = origin \/ rotation = 0 ->
  List.length (rectangle_vertices p w h rotation) = 4%nat /\
  forall q, right_of_all (rectangle_vertices p w h rotation) q <-> turned p rotation (oblong w h) q.
Proof. intros p w h rotation W H O. split; [reflexivity|]. intro q. now apply rectangle_own. Qed.
Print Assumptions C111_rectangle_partial.
Theorem C111_diamond_partial : forall p w h rotation, 0 < w -> 0 < h -> p = origin \/ rotation = 0 ->
  List.length (diamond_vertices p w h rotation) = 4%nat /\
  forall q, right_of_all (diamond_vertices p w h rotation) q <-> turned p rotation (rhombus w h) q.
Proof. intros p w h rotation W H O. split; [reflexivity|]. intro q. now apply diamond_own. Qed.
Print Assumptions C111_diamond_partial.
(** What the corners are in general: they are turned about the origin, not about the position. *)
Theorem C111_about_origin : forall p w h rotation q, 0 < w -> 0 < h ->
  (right_of_all (rectangle_vertices p w h rotation) q <-> turned origin rotation (moved p (oblong w h)) q) /\
  (right_of_all (diamond_vertices p w h rotation) q <-> turned origin rotation (moved p (rhombus w h)) q).
Proof. intros p w h rotation q W H. split; [now apply rectangle_origin|now apply diamond_origin]. Qed.
Print Assumptions C111_about_origin.
Theorem C111_rotated_refuted :
  (exists p w h rotation v, 0 < w /\ 0 < h /\ In v (rectangle_vertices p w h rotation) /\ ~ turned p rotation (oblong w h) v) /\
  (exists p w h rotation v, 0 < w /\ 0 < h /\ In v (diamond_vertices p w h rotation) /\ ~ turned p rotation (rhombus w h) v).
Proof.
  split.
  - destruct rectangle_wrong as (v & I & N). exists (5, 0), 2, 2, 180, v. split; [lra|]. split; [lra|]. split; assumption.
  - destruct diamond_wrong as (v & I & N). exists (5, 0), 2, 2, 180, v. split; [lra|]. split; [lra|]. split; assumption.
Qed.
Print Assumptions C111_rotated_refuted.
(** The bounding box is the smallest box around the corners. *)
Theorem C111_box_partial : forall p w h rotation, 0 <= w -> 0 <= h ->
  (rotation = 0 \/ p = origin /\ 0 <= rotation <= 90 -> bounds_points (rect_box p rotation w h) (rectangle_vertices p w h rotation)) /\
  (rotation = 0 -> bounds_points (rect_box p rotation w h) (diamond_vertices p w h rotation)).
Proof. intros p w h rotation W H. split; [now apply rectangle_box|intros ->; now apply diamond_box]. Qed.
Print Assumptions C111_box_partial.
Example C111_ex : rectangle_vertices (5, 7) 4 2 0 = [(3, 6); (3, 8); (7, 8); (7, 6)] /\ diamond_vertices (5, 7) 4 2 0 = [(5, 8); (7, 7); (5, 6); (3, 7)] /\
  rectangle_vertices origin 4 2 90 = [(1, -2); (-1, -2); (-1, 2); (1, 2)].
Proof.
  unfold rectangle_vertices, diamond_vertices, turn_vertices, radians, origin. cbn [map fst snd]. replace (0 * (PI / 180)) with 0 by field. replace (90 * (PI / 180)) with (PI / 2) by field.
  rewrite cos_0, sin_0, cos_PI2, sin_PI2. split; [|split]; repeat (f_equal; try field).
Qed.

(** ** C112: chamfered rectangles.  The corners span the shape; the sides between successive corners are not the sides
    of the shape unless the upper right and lower left corners are whole. *)
Theorem C112_spanned_partial : forall p w h c ur ul ll lr rotation, 0 <= c -> 2 * c <= w -> 2 * c <= h -> p = origin \/ rotation = 0 ->
  forall q, spanned (chamfer_vertices p w h c [ur; ul; ll; lr] rotation) q <-> turned p rotation (chamfered w h c ur ul ll lr) q.
Proof. intros p w h c ur ul ll lr rotation C W H O q. now apply chamfer_own. Qed.
Print Assumptions C112_spanned_partial.
Theorem C112_contour_partial : forall p w h c ul lr rotation, 0 < c -> 2 * c <= w -> 2 * c <= h -> p = origin \/ rotation = 0 ->
  forall q, left_of_all (chamfer_vertices p w h c [false; ul; false; lr] rotation) q <-> turned p rotation (chamfered w h c false ul false lr) q.
Proof. intros p w h c ul lr rotation C W H O q. now apply chamfer_order. Qed.
Print Assumptions C112_contour_partial.
Theorem C112_contour_refuted : forall p w h c rotation, 0 < c -> 2 * c < w -> 2 * c < h ->
  let l := chamfer_vertices p w h c [true; true; true; true] rotation in
  exists s t, In s (sides l) /\ In t (sides l) /\ crossing s t.
Proof. exact chamfer_crossed. Qed.
Print Assumptions C112_contour_refuted.
Example C112_ex : chamfer_vertices (5, 7) 8 6 1 [true; false; false; true] 0 = [(8, 10); (9, 9); (1, 10); (1, 4); (8, 4); (9, 5)] /\
  turned (5, 7) 0 (chamfered 8 6 1 true false false true) (17 / 2, 19 / 2) /\ ~ turned (5, 7) 0 (chamfered 8 6 1 true false false true) (9, 10).
Proof.
  split; [|split].
  - unfold chamfer_vertices, turn_vertices, radians. cbn [map fst snd rect_corners combine chamfer_corners chamfer_corner app]. replace (0 * (PI / 180)) with 0 by field. rewrite cos_0, sin_0. repeat (f_equal; try field).
  - exists (7 / 2, 5 / 2). split; [|replace (0 * PI / 180) with 0 by field; rewrite cos_0, sin_0; cbn [fst snd]; f_equal; field].
    unfold chamfered, oblong, cut. cbn [fst snd]. repeat split; try (intros; discriminate); intros; lra.
  - intros (q & (_ & Q & _) & E). replace (0 * PI / 180) with 0 in E by field. rewrite cos_0, sin_0 in E. cbn [fst snd] in E. injection E as E1 E2. specialize (Q eq_refl). lra.
Qed.

(** ** C113: segments are the connections of all pairs of corners, each once; so the sides are among them, up to
    direction, but the diagonals too. *)
Theorem C113_pairs : forall l, l <> [] -> exists s, segments (Some l) = Some s /\
  (forall u v, In (u, v) s <-> exists i j, (i < j)%nat /\ nth_error l i = Some u /\ nth_error l j = Some v) /\
  (2 * List.length s = List.length l * (List.length l - 1))%nat.
Proof.
  intros [|v l] N; [contradiction|]. exists (combinations2 (v :: l)). split; [reflexivity|]. split; [intros; apply in_combinations|apply combinations_length].
Qed.
Print Assumptions C113_pairs.
Theorem C113_diagonals : forall p w h rotation, exists s u v, segments (Some (rectangle_vertices p w h rotation)) = Some s /\
  nth_error (rectangle_vertices p w h rotation) 0 = Some u /\ nth_error (rectangle_vertices p w h rotation) 2 = Some v /\ In (u, v) s.
Proof. intros p w h rotation. do 3 eexists. split; [reflexivity|]. split; [reflexivity|]. split; [reflexivity|]. cbn. auto. Qed.
Print Assumptions C113_diagonals.
Example C113_ex : segments (Some [(0, 0); (1, 0); (1, 1)]) = Some [((0, 0), (1, 0)); ((0, 0), (1, 1)); ((1, 0), (1, 1))] /\ segments (Some []) = None /\ segments None = None.
Proof. repeat split. Qed.
