(** Proofs about the corners of flashed primitives. *)
From Verif Require Import PyBase GeomModel GeomSpec GeomProofs HullModel HullSpec HullProofs MacroGeomModel MacroGeomSpec MacroGeomProofs VertModel VertSpec.
From Coq Require Import List Reals Lra Lia.
Import ListNotations.
Open Scope R_scope.

Lemma turn_is rot l : turn_vertices rot l = map (fun q => rotate_point q rot origin) l.
Proof. apply map_ext. intros [x y]. rewrite rotate_is. unfold radians, origin. cbn [fst snd]. replace (rot * (PI / 180)) with (rot * PI / 180) by field. f_equal; ring. Qed.
Lemma right_rotate l rot c p : right_of_all (map (fun q => rotate_point q rot c) l) p <-> right_of_all l (unrotate p rot c).
Proof.
  split.
  - intros H u v S. rewrite <- (cross_rotate u v _ rot c), unrotate_rotate. apply H. apply sides_map. exists u, v. auto.
  - intros H u v S. apply sides_map in S. destruct S as (u' & v' & S & -> & ->). rewrite <- (unrotate_rotate p rot c), cross_rotate. now apply H.
Qed.
(** Turning about the own centre or about the origin. *)
Lemma turned_own c rot s p : c = origin \/ rot = 0 -> (turned c rot s p <-> turned origin rot (moved c s) p).
Proof.
  intros O. rewrite !turned_is. unfold moved. cbn [fst snd].
  replace (unrotate p rot c) with (unrotate p rot origin).
  { change (fst origin) with 0. change (snd origin) with 0. rewrite !Rminus_0_r. reflexivity. }
  destruct O as [->| ->]; [reflexivity|]. unfold unrotate. rewrite !rotate_is. unfold origin. cbn [fst snd].
  replace (-0 * PI / 180) with 0 by field. rewrite cos_0, sin_0. f_equal; ring.
Qed.
Lemma turned_moved c rot s p : turned origin rot (moved c s) p <-> moved c s (unrotate p rot origin).
Proof. rewrite turned_is. change (fst origin) with 0. change (snd origin) with 0. rewrite !Rminus_0_r. now rewrite <- surjective_pairing. Qed.

(** ** Rectangles and diamonds *)
Ltac all_sides H := unfold sides in H; cbn [combine app In] in H; repeat match type of H with _ \/ _ => destruct H as [H|H] end; [..|destruct H]; injection H as <- <-.
Ltac side_of K := match goal with |- _ => specialize (K _ _ ltac:(unfold sides; cbn [combine app In]; auto 10)) end.
Lemma rectangle_right p w h q : 0 < w -> 0 < h ->
  (right_of_all [(fst p - w / 2, snd p - h / 2); (fst p - w / 2, snd p + h / 2); (fst p + w / 2, snd p + h / 2); (fst p + w / 2, snd p - h / 2)] q <-> moved p (oblong w h) q).
Proof.
  intros W H. destruct p as [px py], q as [x y]. unfold right_of_all, moved, oblong. cbn [fst snd]. split.
  - intro K.
    pose proof (K (px - w / 2, py - h / 2) (px - w / 2, py + h / 2) ltac:(cbn; auto)) as K1.
    pose proof (K (px - w / 2, py + h / 2) (px + w / 2, py + h / 2) ltac:(cbn; auto)) as K2.
    pose proof (K (px + w / 2, py + h / 2) (px + w / 2, py - h / 2) ltac:(cbn; auto)) as K3.
    pose proof (K (px + w / 2, py - h / 2) (px - w / 2, py - h / 2) ltac:(cbn; auto)) as K4.
    unfold cross in *. cbn [fst snd] in *. split; split; nra.
  - intros [A B] u v S. all_sides S; unfold cross; cbn [fst snd]; nra.
Qed.
Lemma rhombus_is w h p : 0 < w -> 0 < h -> (rhombus w h p <-> Rabs (fst p) * h + Rabs (snd p) * w <= w * h / 2).
Proof.
  intros W H. split.
  - intros (a & b & L & ->). cbn [fst snd]. rewrite !Rabs_mult, (Rabs_pos_eq (w / 2)), (Rabs_pos_eq (h / 2)) by lra. assert (0 < w * h) by nra.
    replace (_ + _) with ((Rabs a + Rabs b) * (w * h / 2)) by field. nra.
  - intro L. exists (fst p / (w / 2)), (snd p / (h / 2)). split.
    + unfold Rdiv. rewrite !Rabs_mult, (Rabs_pos_eq (/ (w * / 2))), (Rabs_pos_eq (/ (h * / 2))) by (left; apply Rinv_0_lt_compat; lra).
      apply (Rmult_le_reg_r (w * h / 2)); [nra|]. field_simplify; [|lra]. lra.
    + rewrite (surjective_pairing p) at 1. f_equal; field; lra.
Qed.
Lemma diamond_right p w h q : 0 < w -> 0 < h ->
  (right_of_all [(fst p, snd p + h / 2); (fst p + w / 2, snd p); (fst p, snd p - h / 2); (fst p - w / 2, snd p)] q <-> moved p (rhombus w h) q).
Proof.
  intros W H. unfold moved. rewrite rhombus_is by assumption. destruct p as [px py], q as [x y]. unfold right_of_all. cbn [fst snd]. split.
  - intro K.
    pose proof (K (px, py + h / 2) (px + w / 2, py) ltac:(cbn; auto)) as K1.
    pose proof (K (px + w / 2, py) (px, py - h / 2) ltac:(cbn; auto)) as K2.
    pose proof (K (px, py - h / 2) (px - w / 2, py) ltac:(cbn; auto)) as K3.
    pose proof (K (px - w / 2, py) (px, py + h / 2) ltac:(cbn; auto)) as K4.
    unfold cross in *. cbn [fst snd] in *. unfold Rabs. destruct (Rcase_abs (x - px)), (Rcase_abs (y - py)); nra.
  - intros A u v S. revert A. unfold Rabs. destruct (Rcase_abs (x - px)), (Rcase_abs (y - py)); intro A; all_sides S; unfold cross; cbn [fst snd]; nra.
Qed.
Lemma rectangle_origin p w h rot q : 0 < w -> 0 < h -> (right_of_all (rectangle_vertices p w h rot) q <-> turned origin rot (moved p (oblong w h)) q).
Proof. intros W H. unfold rectangle_vertices. cbn zeta. rewrite turn_is, right_rotate, rectangle_right by assumption. symmetry. apply turned_moved. Qed.
Lemma diamond_origin p w h rot q : 0 < w -> 0 < h -> (right_of_all (diamond_vertices p w h rot) q <-> turned origin rot (moved p (rhombus w h)) q).
Proof. intros W H. unfold diamond_vertices. cbn zeta. rewrite turn_is, right_rotate, diamond_right by assumption. symmetry. apply turned_moved. Qed.
Lemma rectangle_own p w h rot q : 0 < w -> 0 < h -> p = origin \/ rot = 0 -> (right_of_all (rectangle_vertices p w h rot) q <-> turned p rot (oblong w h) q).
Proof. intros W H O. rewrite rectangle_origin by assumption. symmetry. now apply turned_own. Qed.
Lemma diamond_own p w h rot q : 0 < w -> 0 < h -> p = origin \/ rot = 0 -> (right_of_all (diamond_vertices p w h rot) q <-> turned p rot (rhombus w h) q).
Proof. intros W H O. rewrite diamond_origin by assumption. symmetry. now apply turned_own. Qed.

(** ** The smallest box *)
Lemma rectangle_box p w h rot : 0 <= w -> 0 <= h -> rot = 0 \/ p = origin /\ 0 <= rot <= 90 ->
  bounds_points (rect_box p rot w h) (rectangle_vertices p w h rot).
Proof.
  intros W H O. unfold rectangle_vertices, rect_box, BoxModel.rect_box, around, aa_width, aa_height, half, turn_vertices. cbn zeta. cbn [map fst snd].
  set (C := cos (radians rot)). set (S := sin (radians rot)).
  assert (K : p = origin /\ 0 <= C /\ 0 <= S \/ C = 1 /\ S = 0).
  { destruct O as [->|[-> R]]; [right; unfold C, S, radians; replace (0 * (PI / 180)) with 0 by field; now rewrite cos_0, sin_0|left].
    pose proof PI_RGT_0. split; [reflexivity|]. split; [apply cos_ge_0|apply sin_ge_0]; unfold radians; nra. }
  clearbody C S. destruct p as [x y]. cbn [fst snd].
  assert (K' : x = 0 /\ y = 0 /\ 0 <= C /\ 0 <= S \/ C = 1 /\ S = 0) by (destruct K as [(E & K)|K]; [injection E as -> ->; tauto|tauto]). clear K O.
  split.
  - intros q I. unfold inside. cbn [fst snd In] in *.
    destruct K' as [(-> & -> & A & B)|[-> ->]]; repeat destruct I as [I|I]; try destruct I; cbn [fst snd]; split; split; nra.
  - unfold touches. cbn [fst snd In]. destruct K' as [(-> & -> & A & B)|[-> ->]].
    + split; [eexists; split; [right; left; reflexivity|cbn [fst]; field]|]. split; [eexists; split; [right; right; right; left; reflexivity|cbn [fst]; field]|].
      split; [eexists; split; [left; reflexivity|cbn [snd]; field]|]. eexists; split; [right; right; left; reflexivity|cbn [snd]; field].
    + split; [eexists; split; [right; left; reflexivity|cbn [fst]; field]|]. split; [eexists; split; [right; right; right; left; reflexivity|cbn [fst]; field]|].
      split; [eexists; split; [left; reflexivity|cbn [snd]; field]|]. eexists; split; [right; right; left; reflexivity|cbn [snd]; field].
Qed.
Lemma diamond_box p w h : 0 <= w -> 0 <= h -> bounds_points (rect_box p 0 w h) (diamond_vertices p w h 0).
Proof.
  intros W H. unfold diamond_vertices, rect_box, BoxModel.rect_box, around, aa_width, aa_height, half, turn_vertices. cbn zeta. cbn [map fst snd].
  unfold radians. replace (0 * (PI / 180)) with 0 by field. rewrite cos_0, sin_0. destruct p as [x y]. cbn [fst snd]. split.
  - intros q I. unfold inside. cbn [fst snd In] in *. repeat destruct I as [I|I]; try destruct I; cbn [fst snd]; split; split; lra.
  - unfold touches. cbn [fst snd In].
    split; [eexists; split; [right; right; right; left; reflexivity|cbn [fst]; field]|]. split; [eexists; split; [right; left; reflexivity|cbn [fst]; field]|].
    split; [eexists; split; [right; right; left; reflexivity|cbn [snd]; field]|]. eexists; split; [left; reflexivity|cbn [snd]; field].
Qed.
(** A rectangle turned upside down elsewhere. *)
Lemma rectangle_wrong : exists v, In v (rectangle_vertices (5, 0) 2 2 180) /\ ~ turned (5, 0) 180 (oblong 2 2) v.
Proof.
  unfold rectangle_vertices, turn_vertices, radians. cbn zeta. cbn [map fst snd]. replace (180 * (PI / 180)) with PI by field. rewrite cos_PI, sin_PI.
  eexists. split; [left; reflexivity|]. intros (q & Q & E). replace (180 * PI / 180) with PI in E by field. rewrite cos_PI, sin_PI in E. unfold oblong in Q. cbn [fst snd] in *. injection E as E1 E2. lra.
Qed.
Lemma diamond_wrong : exists v, In v (diamond_vertices (5, 0) 2 2 180) /\ ~ turned (5, 0) 180 (rhombus 2 2) v.
Proof.
  unfold diamond_vertices, turn_vertices, radians. cbn zeta. cbn [map fst snd]. replace (180 * (PI / 180)) with PI by field. rewrite cos_PI, sin_PI.
  eexists. split; [left; reflexivity|]. intros (q & Q & E). apply rhombus_is in Q; [|lra|lra]. replace (180 * PI / 180) with PI in E by field. rewrite cos_PI, sin_PI in E.
  cbn [fst snd] in *. injection E as E1 E2. pose proof (Rle_abs (fst q)). pose proof (Rabs_pos (snd q)). lra.
Qed.

(** ** Spanned areas *)
Lemma along_rotate a b w p : along (rotate_point w a origin) (rotate_point p a origin) = b -> along w p = b.
Proof.
  intros <-. rewrite !rotate_is. unfold along, origin. cbn [fst snd]. pose proof (sc2 (a * PI / 180)) as E. set (C := cos _) in *. set (S := sin _) in *.
  transitivity ((S * S + C * C) * (fst w * fst p + snd w * snd p)); [rewrite E; ring|ring].
Qed.
Lemma along_turn a w p : along (rotate_point w a origin) (rotate_point p a origin) = along w p.
Proof. symmetry. now apply (along_rotate a). Qed.
Lemma spanned_rotate l rot p : spanned (map (fun q => rotate_point q rot origin) l) p <-> spanned l (unrotate p rot origin).
Proof.
  split; intros H w.
  - destruct (H (rotate_point w rot origin)) as (c & I & L). apply in_map_iff in I. destruct I as (c' & <- & I). exists c'. split; [exact I|].
    rewrite <- (along_turn rot w), unrotate_rotate. now rewrite <- (along_turn rot w c').
  - destruct (H (unrotate w rot origin)) as (c & I & L). exists (rotate_point c rot origin). split; [now apply (in_map (fun q => rotate_point q rot origin))|].
    rewrite <- (along_turn rot (unrotate w rot origin)), !unrotate_rotate in L. rewrite <- (along_turn rot (unrotate w rot origin) c), unrotate_rotate in L. exact L.
Qed.

(** ** Chamfers *)
Definition plain (p : pt) (w h c : R) (ur ul ll lr : bool) : list pt :=
  chamfer_corners c 0 (combine (rect_corners p w h) [ur; ul; ll; lr]).
Lemma plain_is p w h c ur ul ll lr : plain p w h c ur ul ll lr =
  (if ur then [(fst p + w / 2 - c, snd p + h / 2); (fst p + w / 2, snd p + h / 2 - c)] else [(fst p + w / 2, snd p + h / 2)]) ++
  (if ul then [(fst p - w / 2 + c, snd p + h / 2); (fst p - w / 2, snd p + h / 2 - c)] else [(fst p - w / 2, snd p + h / 2)]) ++
  (if ll then [(fst p - w / 2 + c, snd p - h / 2); (fst p - w / 2, snd p - h / 2 + c)] else [(fst p - w / 2, snd p - h / 2)]) ++
  (if lr then [(fst p + w / 2 - c, snd p - h / 2); (fst p + w / 2, snd p - h / 2 + c)] else [(fst p + w / 2, snd p - h / 2)]).
Proof. destruct ur, ul, ll, lr; reflexivity. Qed.
Lemma spanned_le l p w k : spanned l p -> (forall v, In v l -> along w v <= k) -> along w p <= k.
Proof. intros S B. destruct (S w) as (c & I & L). pose proof (B c I). lra. Qed.
Ltac vertices_of I := repeat match type of I with
  | In _ (_ ++ _) => apply in_app_or in I; destruct I as [I|I]
  | In _ (if ?b then _ else _) => destruct b
  | In _ (_ :: _) => destruct I as [I|I]; [rewrite <- I|]
  | In _ [] => destruct I
  end.
Lemma chamfer_plain p w h c ur ul ll lr q : 0 <= c -> 2 * c <= w -> 2 * c <= h ->
  (spanned (plain p w h c ur ul ll lr) q <-> moved p (chamfered w h c ur ul ll lr) q).
Proof.
  intros C W H. rewrite plain_is. destruct p as [px py], q as [x y]. unfold moved, chamfered, oblong, cut. cbn [fst snd]. split.
  - intro S.
    assert (E1 : along (1, 0) (x, y) <= px + w / 2) by (apply (spanned_le _ _ _ _ S); intros v I; vertices_of I; unfold along; cbn [fst snd]; lra).
    assert (E2 : along (-1, 0) (x, y) <= - px + w / 2) by (apply (spanned_le _ _ _ _ S); intros v I; vertices_of I; unfold along; cbn [fst snd]; lra).
    assert (E3 : along (0, 1) (x, y) <= py + h / 2) by (apply (spanned_le _ _ _ _ S); intros v I; vertices_of I; unfold along; cbn [fst snd]; lra).
    assert (E4 : along (0, -1) (x, y) <= - py + h / 2) by (apply (spanned_le _ _ _ _ S); intros v I; vertices_of I; unfold along; cbn [fst snd]; lra).
    unfold along in *. cbn [fst snd] in *. split; [lra|]. split; [|split; [|split]]; intros ->.
    + assert (E : along (1, 1) (x, y) <= px + py + w / 2 + h / 2 - c) by (apply (spanned_le _ _ _ _ S); intros v I; vertices_of I; unfold along; cbn [fst snd]; lra). unfold along in E. cbn [fst snd] in E. lra.
    + assert (E : along (-1, 1) (x, y) <= - px + py + w / 2 + h / 2 - c) by (apply (spanned_le _ _ _ _ S); intros v I; vertices_of I; unfold along; cbn [fst snd]; lra). unfold along in E. cbn [fst snd] in E. lra.
    + assert (E : along (-1, -1) (x, y) <= - px - py + w / 2 + h / 2 - c) by (apply (spanned_le _ _ _ _ S); intros v I; vertices_of I; unfold along; cbn [fst snd]; lra). unfold along in E. cbn [fst snd] in E. lra.
    + assert (E : along (1, -1) (x, y) <= px - py + w / 2 + h / 2 - c) by (apply (spanned_le _ _ _ _ S); intros v I; vertices_of I; unfold along; cbn [fst snd]; lra). unfold along in E. cbn [fst snd] in E. lra.
  - intros ((X & Y) & UR & UL & LL & LR) [a b].
    destruct (Rle_dec 0 a) as [A|A], (Rle_dec 0 b) as [B|B].
    + clear UL LL LR. destruct ur; [specialize (UR eq_refl); destruct (Rle_dec a b)|].
      * exists (px + w / 2 - c, py + h / 2). split; [apply in_or_app; left; cbn; tauto|unfold along; cbn [fst snd]; nra].
      * exists (px + w / 2, py + h / 2 - c). split; [apply in_or_app; left; cbn; tauto|unfold along; cbn [fst snd]; nra].
      * exists (px + w / 2, py + h / 2). split; [apply in_or_app; left; cbn; tauto|unfold along; cbn [fst snd]; nra].
    + clear UL LL UR. destruct lr; [specialize (LR eq_refl); destruct (Rle_dec a (- b))|].
      * exists (px + w / 2 - c, py - h / 2). split; [do 3 (apply in_or_app; right); cbn; tauto|unfold along; cbn [fst snd]; nra].
      * exists (px + w / 2, py - h / 2 + c). split; [do 3 (apply in_or_app; right); cbn; tauto|unfold along; cbn [fst snd]; nra].
      * exists (px + w / 2, py - h / 2). split; [do 3 (apply in_or_app; right); cbn; tauto|unfold along; cbn [fst snd]; nra].
    + clear UR LL LR. destruct ul; [specialize (UL eq_refl); destruct (Rle_dec (- a) b)|].
      * exists (px - w / 2 + c, py + h / 2). split; [apply in_or_app; right; apply in_or_app; left; cbn; tauto|unfold along; cbn [fst snd]; nra].
      * exists (px - w / 2, py + h / 2 - c). split; [apply in_or_app; right; apply in_or_app; left; cbn; tauto|unfold along; cbn [fst snd]; nra].
      * exists (px - w / 2, py + h / 2). split; [apply in_or_app; right; apply in_or_app; left; cbn; tauto|unfold along; cbn [fst snd]; nra].
    + clear UL UR LR. destruct ll; [specialize (LL eq_refl); destruct (Rle_dec (- a) (- b))|].
      * exists (px - w / 2 + c, py - h / 2). split; [do 2 (apply in_or_app; right); apply in_or_app; left; cbn; tauto|unfold along; cbn [fst snd]; nra].
      * exists (px - w / 2, py - h / 2 + c). split; [do 2 (apply in_or_app; right); apply in_or_app; left; cbn; tauto|unfold along; cbn [fst snd]; nra].
      * exists (px - w / 2, py - h / 2). split; [do 2 (apply in_or_app; right); apply in_or_app; left; cbn; tauto|unfold along; cbn [fst snd]; nra].
Qed.
Lemma chamfer_origin p w h c ur ul ll lr rot q : 0 <= c -> 2 * c <= w -> 2 * c <= h ->
  (spanned (chamfer_vertices p w h c [ur; ul; ll; lr] rot) q <-> turned origin rot (moved p (chamfered w h c ur ul ll lr)) q).
Proof. intros C W H. unfold chamfer_vertices. rewrite turn_is, spanned_rotate. fold (plain p w h c ur ul ll lr). rewrite chamfer_plain by assumption. symmetry. apply turned_moved. Qed.
Lemma chamfer_own p w h c ur ul ll lr rot q : 0 <= c -> 2 * c <= w -> 2 * c <= h -> p = origin \/ rot = 0 ->
  (spanned (chamfer_vertices p w h c [ur; ul; ll; lr] rot) q <-> turned p rot (chamfered w h c ur ul ll lr) q).
Proof. intros C W H O. rewrite chamfer_origin by assumption. symmetry. now apply turned_own. Qed.
(** The order is right at the upper left and lower right corners. *)
Lemma left_forall l q : left_of_all l q <-> Forall (fun s => 0 <= cross (fst s) (snd s) q) (sides l).
Proof. rewrite Forall_forall. split; [intros K [u v] I; now apply K|intros K u v I; apply (K (u, v) I)]. Qed.
Lemma pos_factor a b : 0 < a -> (0 <= a * b <-> 0 <= b).
Proof. intro A. split; intro H; [apply (Rmult_le_reg_l a); lra|nra]. Qed.
Lemma chamfer_order_plain p w h c ul lr q : 0 < c -> 2 * c <= w -> 2 * c <= h ->
  (left_of_all (plain p w h c false ul false lr) q <-> moved p (chamfered w h c false ul false lr) q).
Proof.
  intros C W H. rewrite left_forall, plain_is. destruct p as [px py], q as [x y]. unfold moved, chamfered, oblong, cut, cross. cbn [fst snd].
  destruct ul, lr; cbn [app sides combine]; (split;
  [intro K; repeat match goal with H : Forall _ (_ :: _) |- _ => apply Forall_cons_iff in H; destruct H end; cbn [fst snd] in *; repeat split; try (intros; discriminate); try (intros _)
  |intros ((X & Y) & UR & UL & LL & LR); try specialize (UL eq_refl); try specialize (LR eq_refl); repeat (apply Forall_cons; [cbn [fst snd]|]); try apply Forall_nil]).
  all: nra.
Qed.
Lemma chamfer_order p w h c ul lr rot q : 0 < c -> 2 * c <= w -> 2 * c <= h -> p = origin \/ rot = 0 ->
  (left_of_all (chamfer_vertices p w h c [false; ul; false; lr] rot) q <-> turned p rot (chamfered w h c false ul false lr) q).
Proof.
  intros C W H O. rewrite (turned_own _ _ _ _ O), turned_moved. unfold chamfer_vertices. rewrite turn_is, left_rotate.
  fold (plain p w h c false ul false lr). now apply chamfer_order_plain.
Qed.
Lemma chamfer_crossed p w h c rot : 0 < c -> 2 * c < w -> 2 * c < h ->
  exists s t, In s (sides (chamfer_vertices p w h c [true; true; true; true] rot)) /\ In t (sides (chamfer_vertices p w h c [true; true; true; true] rot)) /\ crossing s t.
Proof.
  intros C W H. unfold chamfer_vertices. rewrite turn_is. fold (plain p w h c true true true true). rewrite plain_is. destruct p as [x y]. cbn [fst snd app map].
  eexists _, _. split; [unfold sides; cbn [combine app In]; right; left; reflexivity|]. split; [unfold sides; cbn [combine app In]; do 7 right; left; reflexivity|].
  unfold crossing. cbn [fst snd]. rewrite !cross_rotate. unfold cross. cbn [fst snd].
  assert (N : forall a b, 0 < a -> b < 0 -> a * b < 0) by (intros; nra). split.
  - apply N; [apply Rlt_le_trans with ((w - c) * (h - 2 * c)); [nra|right; field]|apply Rle_lt_trans with (c * (2 * c - w)); [right; field|nra]].
  - rewrite Rmult_comm. apply N; [apply Rlt_le_trans with ((h - c) * (w - 2 * c)); [nra|right; field]|apply Rle_lt_trans with (- c * (h - 2 * c)); [right; field|nra]].
Qed.

(** ** Segments *)
Lemma in_combinations {A} (l : list A) u v : In (u, v) (combinations2 l) <-> exists i j, (i < j)%nat /\ nth_error l i = Some u /\ nth_error l j = Some v.
Proof.
  induction l as [|x l IH]; cbn [combinations2].
  - split; [intros []|intros (i & j & _ & E & _); destruct i; discriminate E].
  - rewrite in_app_iff, in_map_iff, IH. split.
    + intros [(y & E & I)|(i & j & L & A1 & A2)].
      * injection E as <- <-. apply In_nth_error in I. destruct I as (j & J). exists 0%nat, (S j). split; [lia|]. auto.
      * exists (S i), (S j). split; [lia|]. auto.
    + intros ([|i] & [|j] & L & A1 & A2); try lia.
      * injection A1 as <-. left. exists v. split; [reflexivity|]. now apply nth_error_In with j.
      * right. exists i, j. split; [lia|]. auto.
Qed.
Lemma combinations_length {A} (l : list A) : (2 * List.length (combinations2 l) = List.length l * (List.length l - 1))%nat.
Proof. induction l as [|x l IH]; [reflexivity|]. cbn [combinations2 List.length]. rewrite app_length, map_length. destruct (List.length l); nia. Qed.
