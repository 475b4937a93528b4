(** Proofs about geometry over the real numbers. *)
From Coq Require Import Lra Lia.
From Verif Require Import GeomSpec.
Import ListNotations.
Open Scope R_scope.
Open Scope list_scope.

Lemma sc2 a : sin a * sin a + cos a * cos a = 1.
Proof. pose proof (sin2_cos2 a) as H. unfold Rsqr in H. exact H. Qed.
Lemma pt_eq (x y x' y' : R) : x = x' -> y = y' -> (x, y) = (x', y').
Proof. now intros -> ->. Qed.

Lemma box_eq (a b c d a' b' c' d' : R) : a = a' -> b = b' -> c = c' -> d = d' -> ((a, b), (c, d)) = ((a', b'), (c', d')).
Proof. now intros -> -> -> ->. Qed.

(** ** Rotation *)
Lemma rotate_isometry p q a c : dist2 (rotate_point p a c) (rotate_point q a c) = dist2 p q.
Proof.
  unfold dist2, rotate_point. cbn [fst snd]. pose proof (sc2 (radians a)) as H. set (s := sin _) in *. set (k := cos _) in *.
  transitivity ((s * s + k * k) * ((fst p - fst q) ^ 2 + (snd p - snd q) ^ 2)); [ring|]. rewrite H. ring.
Qed.
Lemma rotate_center a c : rotate_point c a c = c.
Proof. destruct c as [x y]. unfold rotate_point. cbn [fst snd]. apply pt_eq; ring. Qed.
Lemma rotate_add p a b c : rotate_point (rotate_point p a c) b c = rotate_point p (a + b) c.
Proof.
  unfold rotate_point. cbn [fst snd]. unfold radians. replace ((a + b) * (PI / 180)) with (b * (PI / 180) + a * (PI / 180)) by ring.
  rewrite sin_plus, cos_plus. apply pt_eq; ring.
Qed.
Lemma rotate_0 p c : rotate_point p 0 c = p.
Proof. destruct p. unfold rotate_point, radians. cbn [fst snd]. rewrite Rmult_0_l, sin_0, cos_0. apply pt_eq; ring. Qed.
Lemma rotate_back p a c : rotate_point (rotate_point p a c) (- a) c = p.
Proof. rewrite rotate_add. replace (a + - a) with 0 by ring. apply rotate_0. Qed.
Lemma rotate_quarter p c : rotate_point p 90 c = (fst c - (snd p - snd c), snd c + (fst p - fst c)).
Proof.
  unfold rotate_point, radians. replace (90 * (PI / 180)) with (PI / 2) by field. rewrite sin_PI2, cos_PI2. apply pt_eq; ring.
Qed.
Lemma rotate_full p c : rotate_point p 360 c = p.
Proof.
  destruct p. unfold rotate_point, radians. replace (360 * (PI / 180)) with (2 * PI) by field. rewrite sin_2PI, cos_2PI. cbn [fst snd]. apply pt_eq; ring.
Qed.

(** ** Simple boxes *)
Lemma sq_le_abs x r : 0 <= r -> x ^ 2 <= r ^ 2 -> - r <= x <= r.
Proof. intros Hr H. split; nra. Qed.
Lemma disc_bounds c r : 0 <= r -> bounds ((fst c - r, fst c + r), (snd c - r, snd c + r)) (disc c r).
Proof.
  intro Hr. split.
  - intros p H. unfold disc, dist2 in H. unfold inside. cbn [fst snd].
    assert (X : (fst p - fst c) ^ 2 <= r ^ 2) by (pose proof (pow2_ge_0 (snd p - snd c)); lra).
    assert (Y : (snd p - snd c) ^ 2 <= r ^ 2) by (pose proof (pow2_ge_0 (fst p - fst c)); lra).
    apply sq_le_abs in X; auto. apply sq_le_abs in Y; auto. lra.
  - unfold touches, disc, dist2. cbn [fst snd].
    split; [exists (fst c - r, snd c)|split; [exists (fst c + r, snd c)|split; [exists (fst c, snd c - r)|exists (fst c, snd c + r)]]];
      cbn [fst snd]; (split; [right; ring|reflexivity]).
Qed.
Lemma circle_bounds c d : 0 <= d -> bounds (circle_box c d) (disc c (d / 2)).
Proof. intro H. apply (disc_bounds c (d / 2)). lra. Qed.
Lemma polygon_box_disc c r : 0 <= r -> bounds (polygon_box c r) (disc c r).
Proof. apply disc_bounds. Qed.

Lemma segment_bounds a b : bounds (line_box0 a b) (segment a b).
Proof.
  destruct a as [ax ay], b as [bx b_y]. unfold line_box0, BoxModel.line_box0. cbn [fst snd]. split.
  - intros p (t & Ht & ->). unfold inside. cbn [fst snd]. unfold Rmin, Rmax.
    destruct (Rle_dec ax bx), (Rle_dec ay b_y); split; nra.
  - assert (A : segment (ax, ay) (bx, b_y) (ax, ay)). { exists 0. split; [lra|]. cbn [fst snd]. apply pt_eq; ring. }
    assert (B : segment (ax, ay) (bx, b_y) (bx, b_y)). { exists 1. split; [lra|]. cbn [fst snd]. apply pt_eq; ring. }
    unfold touches. cbn [fst snd]. unfold Rmin, Rmax. destruct (Rle_dec ax bx), (Rle_dec ay b_y);
      (split; [|split; [|split]]); (exists (ax, ay); split; [exact A|cbn; lra]) || (exists (bx, b_y); split; [exact B|cbn; lra]).
Qed.

(** The box of a stroke: that of the path and that of the tool added. *)
Definition sum_box (b c : rbox) : rbox :=
  ((fst (fst b) + fst (fst c), snd (fst b) + snd (fst c)), (fst (snd b) + fst (snd c), snd (snd b) + snd (snd c))).
Lemma stroke_encloses b c s t : encloses b s -> encloses c t -> encloses (sum_box b c) (stroke s t).
Proof.
  intros Hs Ht p (q & v & Sq & Tv & ->). destruct (Hs _ Sq), (Ht _ Tv). unfold inside, sum_box. cbn [fst snd]. lra.
Qed.
Lemma stroke_touches b c s t : touches b s -> touches c t -> touches (sum_box b c) (stroke s t).
Proof.
  intros ((p1 & S1 & E1) & (p2 & S2 & E2) & (p3 & S3 & E3) & (p4 & S4 & E4)) ((q1 & T1 & F1) & (q2 & T2 & F2) & (q3 & T3 & F3) & (q4 & T4 & F4)).
  unfold touches, sum_box. cbn [fst snd].
  split; [exists (fst p1 + fst q1, snd p1 + snd q1); split; [exists p1, q1; auto|cbn; lra]|].
  split; [exists (fst p2 + fst q2, snd p2 + snd q2); split; [exists p2, q2; auto|cbn; lra]|].
  split; [exists (fst p3 + fst q3, snd p3 + snd q3); split; [exists p3, q3; auto|cbn; lra]|].
  exists (fst p4 + fst q4, snd p4 + snd q4); split; [exists p4, q4; auto|cbn; lra].
Qed.
Lemma stroke_bounds b c s t : bounds b s -> bounds c t -> bounds (sum_box b c) (stroke s t).
Proof. intros [? ?] [? ?]. split; [now apply stroke_encloses|now apply stroke_touches]. Qed.
Lemma bounds_eq b c s : bounds b s -> b = c -> bounds c s.
Proof. now intros H <-. Qed.
Lemma grow_sum b dx dy : grow Rplus Rminus b dx dy = sum_box b ((0 - dx, 0 + dx), (0 - dy, 0 + dy)).
Proof. destruct b as [[a b] [c d]]. unfold grow, sum_box. cbn [fst snd]. apply box_eq; ring. Qed.
Lemma oblong_bounds w h : 0 <= w -> 0 <= h -> bounds ((0 - w / 2, 0 + w / 2), (0 - h / 2, 0 + h / 2)) (oblong w h).
Proof.
  intros Hw Hh. split.
  - intros p H. unfold oblong in H. unfold inside. cbn [fst snd]. lra.
  - unfold touches, oblong. cbn [fst snd]. split; [exists (- (w / 2), 0); cbn; lra|]. split; [exists (w / 2, 0); cbn; lra|].
    split; [exists (0, - (h / 2)); cbn; lra|exists (0, h / 2); cbn; lra].
Qed.
Lemma line_round_bounds a b d : 0 <= d -> bounds (line_box_round a b d) (stroke (segment a b) (disc (0, 0) (d / 2))).
Proof.
  intro H. unfold line_box_round, BoxModel.line_box_round. rewrite grow_sum. apply stroke_bounds; [apply segment_bounds|].
  apply (disc_bounds (0, 0) (d / 2)). lra.
Qed.
Lemma line_rect_bounds a b w h : 0 <= w -> 0 <= h -> bounds (line_box_rect a b w h) (stroke (segment a b) (oblong w h)).
Proof.
  intros H H'. unfold line_box_rect, BoxModel.line_box_rect. rewrite grow_sum. apply stroke_bounds; [apply segment_bounds|]. now apply oblong_bounds.
Qed.
Lemma capsule_bounds w h : 0 <= w -> 0 <= h -> bounds ((0 - w / 2, 0 + w / 2), (0 - h / 2, 0 + h / 2)) (capsule w h).
Proof.
  intros Hw Hh. unfold capsule. destruct (Rlt_dec w h) as [L|L]; eapply bounds_eq.
  - apply stroke_bounds; [apply segment_bounds|apply (disc_bounds (0, 0) (w / 2)); lra].
  - unfold sum_box, line_box0, BoxModel.line_box0. cbn [fst snd]. rewrite Rmin_left, Rmax_left, Rmin_left, Rmax_right by lra.
    apply box_eq; field.
  - apply stroke_bounds; [apply segment_bounds|apply (disc_bounds (0, 0) (h / 2)); lra].
  - unfold sum_box, line_box0, BoxModel.line_box0. cbn [fst snd]. rewrite Rmin_left, Rmax_right, Rmin_left, Rmax_left by lra.
    apply box_eq; field.
Qed.
Lemma line_obround_bounds a b w h : 0 <= w -> 0 <= h -> bounds (line_box_rect a b w h) (stroke (segment a b) (capsule w h)).
Proof.
  intros H H'. unfold line_box_rect, BoxModel.line_box_rect. rewrite grow_sum. apply stroke_bounds; [apply segment_bounds|]. now apply capsule_bounds.
Qed.

(** ** Turned shapes *)
Lemma turned_0 c s b : bounds b s -> bounds ((fst c + fst (fst b), fst c + snd (fst b)), (snd c + fst (snd b), snd c + snd (snd b))) (turned c 0 s).
Proof.
  intros [E ((p1 & S1 & E1) & (p2 & S2 & E2) & (p3 & S3 & E3) & (p4 & S4 & E4))].
  assert (T : forall p, s p -> turned c 0 s (fst c + fst p, snd c + snd p)).
  { intros p Hp. exists p. split; [exact Hp|]. replace (0 * PI / 180) with 0 by field. rewrite sin_0, cos_0. apply pt_eq; ring. }
  split.
  - intros p (q & Hq & ->). replace (0 * PI / 180) with 0 by field. rewrite sin_0, cos_0. destruct (E _ Hq). unfold inside. cbn [fst snd]. lra.
  - unfold touches. cbn [fst snd]. split; [eexists; split; [apply (T _ S1)|cbn; lra]|]. split; [eexists; split; [apply (T _ S2)|cbn; lra]|].
    split; [eexists; split; [apply (T _ S3)|cbn; lra]|eexists; split; [apply (T _ S4)|cbn; lra]].
Qed.
Lemma rect_box_0 c w h : rect_box c 0 w h = ((fst c + (0 - w / 2), fst c + (0 + w / 2)), (snd c + (0 - h / 2), snd c + (0 + h / 2))).
Proof.
  unfold rect_box, BoxModel.rect_box, around, aa_width, aa_height, radians, half. rewrite Rmult_0_l, sin_0, cos_0. apply box_eq; field.
Qed.
Lemma rect_unrotated c w h : 0 <= w -> 0 <= h -> bounds (rect_box c 0 w h) (turned c 0 (oblong w h)).
Proof. intros Hw Hh. rewrite rect_box_0. apply (turned_0 c _ _ (oblong_bounds w h Hw Hh)). Qed.
Lemma obround_unrotated c w h : 0 <= w -> 0 <= h -> bounds (rect_box c 0 w h) (turned c 0 (capsule w h)).
Proof. intros Hw Hh. rewrite rect_box_0. apply (turned_0 c _ _ (capsule_bounds w h Hw Hh)). Qed.
Lemma radians_eq r : radians r = r * PI / 180.
Proof. unfold radians. field. Qed.
Lemma quarter_signs r : 0 <= r <= 90 -> 0 <= cos (r * PI / 180) /\ 0 <= sin (r * PI / 180).
Proof.
  intro H. pose proof PI_RGT_0. split.
  - apply cos_ge_0; nra.
  - apply sin_ge_0; nra.
Qed.
Lemma rect_quarter c rot w h : 0 <= w -> 0 <= h -> 0 <= rot <= 90 -> bounds (rect_box c rot w h) (turned c rot (oblong w h)).
Proof.
  intros Hw Hh Hr. destruct (quarter_signs rot Hr) as [Hc Hs]. unfold rect_box, BoxModel.rect_box, around, aa_width, aa_height, half. rewrite radians_eq.
  set (k := cos _) in *. set (s := sin _) in *. split.
  - intros p ([x y] & [Hx Hy] & ->). cbn [fst snd] in *. unfold inside. cbn [fst snd]. fold k s. nra.
  - unfold touches. cbn [fst snd]. 
    assert (T : forall x y, - (w / 2) <= x <= w / 2 -> - (h / 2) <= y <= h / 2 -> turned c rot (oblong w h) (fst c + (k * x - s * y), snd c + (s * x + k * y))).
    { intros x y Hx Hy. exists (x, y). split; [split; assumption|reflexivity]. }
    split; [eexists; split; [apply (T (- (w / 2)) (h / 2)); lra|cbn; field]|]. split; [eexists; split; [apply (T (w / 2) (- (h / 2))); lra|cbn; field]|].
    split; [eexists; split; [apply (T (- (w / 2)) (- (h / 2))); lra|cbn; field]|eexists; split; [apply (T (w / 2) (h / 2)); lra|cbn; field]].
Qed.

Lemma slot_bounds a b d : 0 <= d -> bounds (slot_box a b d) (stroke (segment a b) (disc (0, 0) (d / 2))).
Proof. exact (line_round_bounds a b d). Qed.

(** ** Angles *)
Lemma two_k_nat a k : cos (a + 2 * INR k * PI) = cos a /\ sin (a + 2 * INR k * PI) = sin a.
Proof. split; [apply cos_period|apply sin_period]. Qed.
Lemma two_k a k : cos (a + 2 * IZR k * PI) = cos a /\ sin (a + 2 * IZR k * PI) = sin a.
Proof.
  destruct (Z_le_gt_dec 0 k) as [H|H].
  - replace (IZR k) with (INR (Z.to_nat k)); [apply two_k_nat|]. rewrite INR_IZR_INZ, Z2Nat.id by lia. reflexivity.
  - destruct (two_k_nat (a + 2 * IZR k * PI) (Z.to_nat (- k))) as [C S]. rewrite <- C, <- S.
    replace (a + 2 * IZR k * PI + 2 * INR (Z.to_nat (- k)) * PI) with a; [auto|].
    rewrite INR_IZR_INZ, Z2Nat.id by lia. rewrite opp_IZR. ring.
Qed.
Lemma same_angle a b : cos a = cos b -> sin a = sin b -> exists k, a = b + 2 * IZR k * PI.
Proof.
  intros C S. assert (H : cos (a - b) = 1) by (rewrite cos_minus, C, S; pose proof (sc2 b); lra).
  replace (a - b) with (2 * ((a - b) / 2)) in H by field. rewrite cos_2a_sin in H.
  assert (S0 : sin ((a - b) / 2) = 0) by nra. apply sin_eq_0_0 in S0. destruct S0 as [k E]. exists k. lra.
Qed.
Lemma at_angle_k c r t k : at_angle c r (t + 2 * IZR k * PI) = at_angle c r t.
Proof. unfold at_angle. destruct (two_k t k) as [-> ->]. reflexivity. Qed.
Lemma at_angle_inj c r a b : 0 < r -> at_angle c r a = at_angle c r b -> exists k, a = b + 2 * IZR k * PI.
Proof. intros Hr E. unfold at_angle in E. injection E as E1 E2. apply same_angle; nra. Qed.

Lemma two_pi_pos : 0 < 2 * PI. Proof. pose proof PI_RGT_0. lra. Qed.
Lemma rmod_range a b : 0 < b -> 0 <= rmod a b < b.
Proof.
  intro Hb. unfold rmod. destruct (base_Int_part (a / b)) as [L U]. set (z := IZR (Int_part (a / b))) in *.
  replace (a - b * z) with (b * (a / b - z)) by (field; lra). set (u := a / b - z) in *. assert (0 <= u < 1) by (unfold u; lra). split; nra.
Qed.
Lemma rmod_k a b : exists k, rmod a b = a - b * IZR k.
Proof. eexists. reflexivity. Qed.
Lemma norm_angle a : exists k, a = rmod (a + 2 * PI) (2 * PI) + 2 * IZR k * PI.
Proof.
  destruct (rmod_k (a + 2 * PI) (2 * PI)) as [k ->]. exists (k - 1)%Z. rewrite minus_IZR. ring.
Qed.

Lemma hyp_pos y x : 0 < x -> sqrt (x ^ 2 + y ^ 2) = x * sqrt (1 + (y / x) ^ 2).
Proof.
  intro Hx. replace (x ^ 2 + y ^ 2) with ((x * x) * (1 + (y / x) ^ 2)) by (field; lra).
  rewrite sqrt_mult by nra. rewrite sqrt_square by lra. reflexivity.
Qed.
Lemma cs_atan u : cos (atan u) = / sqrt (1 + u ^ 2) /\ sin (atan u) = u / sqrt (1 + u ^ 2).
Proof. replace (u ^ 2) with (Rsqr u) by (unfold Rsqr; ring). rewrite cos_atan, sin_atan. split; [unfold Rdiv; ring|reflexivity]. Qed.
Lemma sqrt_pos1 u : 0 < sqrt (1 + u ^ 2).
Proof. apply sqrt_lt_R0. nra. Qed.
Lemma atan2_polar y x : let r := sqrt (x ^ 2 + y ^ 2) in x = r * cos (atan2 y x) /\ y = r * sin (atan2 y x).
Proof.
  cbn zeta. unfold atan2. destruct (Rlt_dec 0 x) as [H|H].
  - rewrite hyp_pos by assumption. destruct (cs_atan (y / x)) as [-> ->]. pose proof (sqrt_pos1 (y / x)). split; field; lra.
  - destruct (Rlt_dec x 0) as [H'|H'].
    + assert (E : sqrt (x ^ 2 + y ^ 2) = - x * sqrt (1 + (y / x) ^ 2)).
      { replace (x ^ 2 + y ^ 2) with ((- x) ^ 2 + (- y) ^ 2) by ring. rewrite hyp_pos by lra. do 4 f_equal. field. lra. }
      rewrite E. destruct (cs_atan (y / x)) as [C S]. pose proof (sqrt_pos1 (y / x)) as P.
      assert (X : forall a, cos a = - cos (atan (y / x)) -> sin a = - sin (atan (y / x)) ->
        x = - x * sqrt (1 + (y / x) ^ 2) * cos a /\ y = - x * sqrt (1 + (y / x) ^ 2) * sin a).
      { intros a -> ->. rewrite C, S. split; field; lra. }
      destruct (Rle_dec 0 y).
      * apply X; [rewrite neg_cos|rewrite neg_sin]; reflexivity.
      * apply X.
        -- rewrite cos_minus, cos_PI, sin_PI. ring.
        -- rewrite sin_minus, cos_PI, sin_PI. ring.
    + assert (x = 0) by lra. subst x. replace (0 ^ 2 + y ^ 2) with (y ^ 2) by ring.
      destruct (Rlt_dec 0 y) as [Hy|Hy].
      * rewrite sqrt_pow2 by lra. rewrite cos_PI2, sin_PI2. lra.
      * destruct (Rlt_dec y 0) as [Hy'|Hy'].
        -- replace (y ^ 2) with ((- y) ^ 2) by ring. rewrite sqrt_pow2 by lra. rewrite cos_neg, sin_neg, cos_PI2, sin_PI2. lra.
        -- assert (y = 0) by lra. subst y. replace (0 ^ 2) with 0 by ring. rewrite sqrt_0. lra.
Qed.
Lemma radius_is a r f : 0 <= r -> a_start a = at_angle (a_center a) r f -> radius a = r.
Proof.
  intros Hr E. unfold radius. rewrite E. unfold at_angle. cbn [fst snd].
  match goal with |- sqrt ?e = _ => replace e with (r ^ 2 * (sin f * sin f + cos f * cos f)) by ring end. rewrite sc2, Rmult_1_r. now apply sqrt_pow2.
Qed.
Lemma norm_atan2 (p c : pt) r f : 0 < r -> p = at_angle c r f ->
  exists k, f = rmod (atan2 (snd p - snd c) (fst p - fst c) + 2 * PI) (2 * PI) + 2 * IZR k * PI.
Proof.
  intros Hr E. destruct (atan2_polar (snd p - snd c) (fst p - fst c)) as [X Y]. set (t := atan2 _ _) in *. cbn zeta in X, Y.
  destruct (norm_angle t) as [k Ek].
  assert (R0 : sqrt ((fst p - fst c) ^ 2 + (snd p - snd c) ^ 2) = r).
  { rewrite E. unfold at_angle. cbn [fst snd].
    match goal with |- sqrt ?e = _ => replace e with (r ^ 2 * (sin f * sin f + cos f * cos f)) by ring end. rewrite sc2, Rmult_1_r. apply sqrt_pow2. lra. }
  rewrite R0 in X, Y. rewrite E in X, Y. unfold at_angle in X, Y. cbn [fst snd] in X, Y.
  destruct (same_angle f t) as [m Em]; [nra|nra|]. exists (m + k)%Z. rewrite plus_IZR. set (u := rmod _ _) in *. rewrite Em, Ek. ring.
Qed.
Lemma theta0_is a r f : 0 < r -> a_start a = at_angle (a_center a) r f -> exists k, f = theta0 a + 2 * IZR k * PI.
Proof. intros Hr E. unfold theta0, start_angle. now apply norm_atan2 with r. Qed.
Lemma theta1_is a r f : 0 < r -> a_end a = at_angle (a_center a) r f -> exists k, f = theta1 a + 2 * IZR k * PI.
Proof. intros Hr E. unfold theta1, end_angle. now apply norm_atan2 with r. Qed.
Lemma theta0_range a : 0 <= theta0 a < 2 * PI.
Proof. apply rmod_range, two_pi_pos. Qed.
Lemma theta1_range a : 0 <= theta1 a < 2 * PI.
Proof. apply rmod_range, two_pi_pos. Qed.
(** Two angles in one turn that differ by whole turns and a sweep. *)
Lemma wrap t0 t1 l k : 0 <= t0 < 2 * PI -> 0 <= t1 < 2 * PI -> 0 < l <= 2 * PI -> t0 + l = t1 + 2 * IZR k * PI ->
  t1 = t0 + l \/ t1 = t0 + l - 2 * PI.
Proof.
  intros H0 H1 Hl E. pose proof PI_RGT_0 as P.
  assert (A : (-1 < k)%Z). { apply lt_IZR. nra. }
  assert (B : (k < 2)%Z). { apply lt_IZR. nra. }
  assert (k = 0 \/ k = 1)%Z as [-> | ->] by lia; [left|right]; lra.
Qed.

(** ** Boxes of lists of points *)
Lemma fold_min l m : fold_left Rmin l m <= m /\ (forall x, In x l -> fold_left Rmin l m <= x) /\ In (fold_left Rmin l m) (m :: l).
Proof.
  revert m. induction l as [|y l IH]; intro m; cbn [fold_left].
  - split; [lra|]. split; [contradiction|now left].
  - destruct (IH (Rmin m y)) as (A & B & C). pose proof (Rmin_l m y). pose proof (Rmin_r m y). split; [lra|]. split.
    + intros x [<- |I]; [lra|now apply B].
    + destruct C as [C|C]; [|now right; right]. rewrite <- C. unfold Rmin. destruct (Rle_dec m y); [now left|right; now left].
Qed.
Lemma fold_max l m : m <= fold_left Rmax l m /\ (forall x, In x l -> x <= fold_left Rmax l m) /\ In (fold_left Rmax l m) (m :: l).
Proof.
  revert m. induction l as [|y l IH]; intro m; cbn [fold_left].
  - split; [lra|]. split; [contradiction|now left].
  - destruct (IH (Rmax m y)) as (A & B & C). pose proof (Rmax_l m y). pose proof (Rmax_r m y). split; [lra|]. split.
    + intros x [<- |I]; [lra|now apply B].
    + destruct C as [C|C]; [|now right; right]. rewrite <- C. unfold Rmax. destruct (Rle_dec m y); [right; now left|now left].
Qed.
Lemma in_map_of {A B} (f : A -> B) (a : A) l x : In x (f a :: map f l) -> exists p, In p (a :: l) /\ f p = x.
Proof. change (f a :: map f l) with (map f (a :: l)). intro H. apply in_map_iff in H. destruct H as (p & E & I). eauto. Qed.
Lemma points_bounds p l : bounds (points_box p l) (fun q => In q (p :: l)).
Proof.
  unfold points_box, BoxModel.points_box.
  destruct (fold_min (map fst l) (fst p)) as (A1 & B1 & C1), (fold_max (map fst l) (fst p)) as (A2 & B2 & C2).
  destruct (fold_min (map snd l) (snd p)) as (A3 & B3 & C3), (fold_max (map snd l) (snd p)) as (A4 & B4 & C4). split.
  - intros q [<- |I]; unfold inside; cbn [fst snd]; [lra|].
    pose proof (in_map fst _ _ I) as X. pose proof (in_map snd _ _ I) as Y.
    specialize (B1 _ X). specialize (B2 _ X). specialize (B3 _ Y). specialize (B4 _ Y). lra.
  - unfold touches. cbn [fst snd]. split; [now apply in_map_of|]. split; [now apply in_map_of|]. split; now apply in_map_of.
Qed.
Lemma bounds_between b (s s' : shape) : bounds b s -> (forall p, s p -> s' p) -> encloses b s' -> bounds b s'.
Proof.
  intros [E ((p1 & S1 & E1) & (p2 & S2 & E2) & (p3 & S3 & E3) & (p4 & S4 & E4))] I E'. split; [exact E'|].
  split; [|split; [|split]]; [exists p1|exists p2|exists p3|exists p4]; auto.
Qed.

(** ** Arcs *)
(** Between two multiples of a turn the cosine has no inner maximum. *)
Lemma cos_valley u0 u u1 : 0 <= u0 -> u0 <= u <= u1 -> u1 <= 2 * PI -> cos u <= cos u0 \/ cos u <= cos u1.
Proof.
  intros H0 Hu H1. pose proof PI_RGT_0. destruct (Rle_dec u PI) as [L|L].
  - left. apply cos_decr_1; lra.
  - right. apply cos_incr_1; lra.
Qed.
Lemma cos_valley_at q m t0 l t : 0 <= t <= l -> q + 2 * IZR m * PI <= t0 -> t0 + l <= q + 2 * IZR m * PI + 2 * PI ->
  cos (t0 + t - q) <= cos (t0 - q) \/ cos (t0 + t - q) <= cos (t0 + l - q).
Proof.
  intros Ht H0 H1. assert (S : forall x, cos x = cos (x - 2 * IZR m * PI)).
  { intro x. replace (x - 2 * IZR m * PI) with (x + 2 * IZR (- m) * PI) by (rewrite opp_IZR; ring). now destruct (two_k x (- m)) as [-> _]. }
  rewrite (S (t0 + t - q)), (S (t0 - q)), (S (t0 + l - q)). apply cos_valley; lra.
Qed.
(** The counterclockwise arc of [l] radians from the angle [t0]. *)
Definition ccw_arc (c : pt) (r t0 l : R) : shape := fun p => exists t, 0 <= t <= l /\ p = at_angle c r (t0 + t).
(** A box which contains both ends and, for each of the four directions, either the extreme point of
    the circle or no inner extreme, contains the arc. *)
Definition covered (b : rbox) (c : pt) (r t0 l q : R) : Prop :=
  inside b (at_angle c r q) \/ exists m, q + 2 * IZR m * PI <= t0 /\ t0 + l <= q + 2 * IZR m * PI + 2 * PI.
Lemma cos_q2 x : cos (x - PI / 2) = sin x. Proof. rewrite cos_minus, cos_PI2, sin_PI2. ring. Qed.
Lemma cos_q3 x : cos (x - PI) = - cos x. Proof. rewrite cos_minus, cos_PI, sin_PI. ring. Qed.
Lemma q4 : sin (PI * (3 / 2)) = - 1 /\ cos (PI * (3 / 2)) = 0.
Proof. replace (PI * (3 / 2)) with (PI / 2 + PI) by field. rewrite neg_sin, neg_cos, sin_PI2, cos_PI2. lra. Qed.
Lemma cos_q4 x : cos (x - PI * (3 / 2)) = - sin x. Proof. destruct q4 as [S C]. rewrite cos_minus, S, C. ring. Qed.
Lemma scaled_le r x y : 0 < r -> x <= y -> r * x <= r * y. Proof. nra. Qed.
Lemma arc_inside b c r t0 l : 0 < r -> inside b (at_angle c r t0) -> inside b (at_angle c r (t0 + l)) ->
  covered b c r t0 l 0 -> covered b c r t0 l (PI / 2) -> covered b c r t0 l PI -> covered b c r t0 l (PI * (3 / 2)) ->
  encloses b (ccw_arc c r t0 l).
Proof.
  intros Hr [X0 Y0] [X1 Y1] C0 C1 C2 C3 p (t & Ht & ->). unfold at_angle in X0, Y0, X1, Y1. cbn [fst snd] in X0, Y0, X1, Y1.
  unfold inside, at_angle. cbn [fst snd]. destruct (COS_bound (t0 + t)) as [CL CU], (SIN_bound (t0 + t)) as [SL SU]. split; split.
  - destruct C2 as [[I _]|(m & A & B)].
    + unfold at_angle in I. cbn [fst snd] in I. rewrite cos_PI in I. pose proof (scaled_le r _ _ Hr CL). lra.
    + destruct (cos_valley_at PI m t0 l t Ht A B) as [H|H]; rewrite !cos_q3 in H; pose proof (scaled_le r _ _ Hr H); lra.
  - destruct C0 as [[I _]|(m & A & B)].
    + unfold at_angle in I. cbn [fst snd] in I. rewrite cos_0 in I. pose proof (scaled_le r _ _ Hr CU). lra.
    + destruct (cos_valley_at 0 m t0 l t Ht A B) as [H|H]; rewrite !Rminus_0_r in H; pose proof (scaled_le r _ _ Hr H); lra.
  - destruct C3 as [[_ I]|(m & A & B)].
    + unfold at_angle in I. cbn [fst snd] in I. destruct q4 as [Q _]. rewrite Q in I. pose proof (scaled_le r _ _ Hr SL). lra.
    + destruct (cos_valley_at _ m t0 l t Ht A B) as [H|H]; rewrite !cos_q4 in H; pose proof (scaled_le r _ _ Hr H); lra.
  - destruct C1 as [[_ I]|(m & A & B)].
    + unfold at_angle in I. cbn [fst snd] in I. rewrite sin_PI2 in I. pose proof (scaled_le r _ _ Hr SU). lra.
    + destruct (cos_valley_at _ m t0 l t Ht A B) as [H|H]; rewrite !cos_q2 in H; pose proof (scaled_le r _ _ Hr H); lra.
Qed.

Lemma leb_true x y : leb x y = true <-> x <= y. Proof. unfold leb. destruct (Rle_dec x y); split; intro; easy. Qed.
Lemma leb_false x y : leb x y = false <-> y < x. Proof. unfold leb. destruct (Rle_dec x y); split; intro; try easy; lra. Qed.
Lemma ltb_true x y : ltb x y = true <-> x < y. Proof. unfold ltb. destruct (Rlt_dec x y); split; intro; easy. Qed.
Lemma ltb_false x y : ltb x y = false <-> y <= x. Proof. unfold ltb. destruct (Rlt_dec x y); split; intro; try easy; lra. Qed.
Section Crossings.
  Variables (t0 t1 l : R).
  Hypotheses (H0 : 0 <= t0 < 2 * PI) (H1 : 0 <= t1 < 2 * PI) (Hl : 0 < l <= 2 * PI) (W : t1 = t0 + l \/ t1 = t0 + l - 2 * PI).
  Lemma crosses0_true : crosses0 t0 t1 = true -> t0 <= 2 * PI <= t0 + l.
  Proof. unfold crosses0. rewrite leb_true. lra. Qed.
  Lemma crosses0_false : crosses0 t0 t1 = false -> 0 <= t0 /\ t0 + l <= 2 * PI.
  Proof. unfold crosses0. rewrite leb_false. lra. Qed.
  Lemma crosses_true q : 0 < q < 2 * PI -> crosses t0 t1 q = true -> t0 <= q <= t0 + l \/ t0 <= q + 2 * PI <= t0 + l.
  Proof.
    intros Hq. unfold crosses. rewrite Bool.orb_true_iff, !Bool.andb_true_iff, Bool.orb_true_iff, !leb_true, ltb_true.
    intros [(A & [B|B])|(A & B)]; lra.
  Qed.
  Lemma crosses_false q : 0 < q < 2 * PI -> crosses t0 t1 q = false -> (q <= t0 /\ t0 + l <= q + 2 * PI) \/ t0 + l <= q.
  Proof.
    intros Hq. unfold crosses. rewrite Bool.orb_false_iff, !Bool.andb_false_iff, Bool.orb_false_iff, !leb_false, ltb_false.
    intros ([A|[A A']] & [B|B]); lra.
  Qed.
End Crossings.

Definition ext_points (c : pt) (r t0 t1 : R) : list pt :=
  let (x, y) := c in
  (if crosses0 t0 t1 then [(x + r, y)] else []) ++
  (if crosses t0 t1 (PI / 2) then [(x, y + r)] else []) ++
  (if crosses t0 t1 PI then [(x - r, y)] else []) ++
  (if crosses t0 t1 (PI * (3 / 2)) then [(x, y - r)] else []).
Lemma at_0 c r : at_angle c r 0 = (fst c + r, snd c).
Proof. unfold at_angle. rewrite sin_0, cos_0. apply pt_eq; ring. Qed.
Lemma at_90 c r : at_angle c r (PI / 2) = (fst c, snd c + r).
Proof. unfold at_angle. rewrite sin_PI2, cos_PI2. apply pt_eq; ring. Qed.
Lemma at_180 c r : at_angle c r PI = (fst c - r, snd c).
Proof. unfold at_angle. rewrite sin_PI, cos_PI. apply pt_eq; ring. Qed.
Lemma at_270 c r : at_angle c r (PI * (3 / 2)) = (fst c, snd c - r).
Proof. unfold at_angle. destruct q4 as [-> ->]. apply pt_eq; ring. Qed.
Lemma ext_in c r t0 t1 p : In p (ext_points c r t0 t1) ->
  (crosses0 t0 t1 = true /\ p = at_angle c r 0) \/ exists q, 0 < q < 2 * PI /\ crosses t0 t1 q = true /\ p = at_angle c r q.
Proof.
  pose proof PI_RGT_0. destruct c as [x y]. unfold ext_points. intro H'. rewrite !in_app_iff in H'. destruct H' as [I|[I|[I|I]]].
  - destruct (crosses0 t0 t1) eqn:E; [destruct I as [<- |[]]|destruct I]. left. now rewrite at_0.
  - destruct (crosses t0 t1 (PI / 2)) eqn:E; [destruct I as [<- |[]]|destruct I]. right. exists (PI / 2). rewrite at_90. split; [lra|auto].
  - destruct (crosses t0 t1 PI) eqn:E; [destruct I as [<- |[]]|destruct I]. right. exists PI. rewrite at_180. split; [lra|auto].
  - destruct (crosses t0 t1 (PI * (3 / 2))) eqn:E; [destruct I as [<- |[]]|destruct I]. right. exists (PI * (3 / 2)). rewrite at_270. split; [lra|auto].
Qed.
Lemma ext_has c r t0 t1 :
  (crosses0 t0 t1 = true -> In (at_angle c r 0) (ext_points c r t0 t1)) /\
  (crosses t0 t1 (PI / 2) = true -> In (at_angle c r (PI / 2)) (ext_points c r t0 t1)) /\
  (crosses t0 t1 PI = true -> In (at_angle c r PI) (ext_points c r t0 t1)) /\
  (crosses t0 t1 (PI * (3 / 2)) = true -> In (at_angle c r (PI * (3 / 2))) (ext_points c r t0 t1)).
Proof.
  rewrite at_0, at_90, at_180, at_270. destruct c as [x y]. unfold ext_points. cbn [fst snd].
  split; [|split; [|split]]; intros ->; rewrite !in_app_iff; cbn; tauto.
Qed.
Lemma ccw_bounds c r t0 t1 l p ps : 0 < r -> 0 <= t0 < 2 * PI -> 0 <= t1 < 2 * PI -> 0 < l <= 2 * PI -> t1 = t0 + l \/ t1 = t0 + l - 2 * PI ->
  (forall x, In x (p :: ps) <-> x = at_angle c r t0 \/ x = at_angle c r (t0 + l) \/ In x (ext_points c r t0 t1)) ->
  bounds (points_box p ps) (ccw_arc c r t0 l).
Proof.
  intros Hr H0 H1 Hl W HP. apply (bounds_between _ _ _ (points_bounds p ps)).
  - intros x I. apply HP in I. destruct I as [-> |[-> |I]].
    + exists 0. rewrite Rplus_0_r. split; [lra|reflexivity].
    + exists l. split; [lra|reflexivity].
    + assert (P : forall q, t0 <= q <= t0 + l \/ t0 <= q + 2 * PI <= t0 + l -> ccw_arc c r t0 l (at_angle c r q)).
      { intros q [Hq|Hq]; [exists (q - t0)|exists (q + 2 * PI - t0)]; split; try lra.
        - f_equal. ring.
        - replace (t0 + (q + 2 * PI - t0)) with (q + 2 * IZR 1 * PI) by ring. now rewrite at_angle_k. }
      apply ext_in in I. destruct I as [[E ->]|(q & Hq & E & ->)]; apply P.
      * right. pose proof (crosses0_true t0 t1 l H0 H1 Hl W E). lra.
      * apply (crosses_true t0 t1 l H0 H1 Hl W q Hq E).
  - destruct (points_bounds p ps) as [E _]. pose proof PI_RGT_0. destruct (ext_has c r t0 t1) as (E0 & E1 & E2 & E3).
    assert (P : forall q, 0 < q < 2 * PI -> (crosses t0 t1 q = true -> In (at_angle c r q) (ext_points c r t0 t1)) -> covered (points_box p ps) c r t0 l q).
    { intros q Hq I. destruct (crosses t0 t1 q) eqn:Cq.
      - left. apply E, HP. auto.
      - right. destruct (crosses_false t0 t1 l H1 Hl W q Hq Cq) as [A|A]; [exists 0%Z|exists (-1)%Z]; lra. }
    apply arc_inside.
    + assumption.
    + apply E, HP. auto.
    + apply E, HP. auto.
    + destruct (crosses0 t0 t1) eqn:Cq.
      * left. apply E, HP. auto.
      * right. exists 0%Z. pose proof (crosses0_false t0 t1 l H0 H1 Hl W Cq). lra.
    + apply P; [lra|exact E1].
    + apply P; [lra|exact E2].
    + apply P; [lra|exact E3].
Qed.
Lemma ccw_shift c r t0 l k p : ccw_arc c r (t0 + 2 * IZR k * PI) l p <-> ccw_arc c r t0 l p.
Proof.
  split; intros (t & Ht & ->); exists t; (split; [exact Ht|]).
  - replace (t0 + 2 * IZR k * PI + t) with (t0 + t + 2 * IZR k * PI) by ring. apply at_angle_k.
  - replace (t0 + 2 * IZR k * PI + t) with (t0 + t + 2 * IZR k * PI) by ring. symmetry. apply at_angle_k.
Qed.
Lemma arc_unique a r f l r' f' l' : arc_is a r f l -> arc_is a r' f' l' -> r = r' /\ l = l' /\ exists k, f = f' + 2 * IZR k * PI.
Proof.
  intros (Hr & Hl & S & E) (Hr' & Hl' & S' & E').
  assert (r = r'). { rewrite <- (radius_is a r f), <- (radius_is a r' f'); auto; lra. } subst r'.
  rewrite S in S'. rewrite E in E'. apply at_angle_inj in S', E'; auto. destruct S' as [k Ek], E' as [m Em].
  split; [reflexivity|]. split; [|eauto]. pose proof PI_RGT_0.
  assert (exists n, l = l' + 2 * IZR n * PI) as [n En].
  { destruct (a_dir a); cbn in Em; [exists (k - m)%Z|exists (m - k)%Z]; rewrite minus_IZR; lra. }
  assert (-1 < n)%Z by (apply lt_IZR; nra). assert (n < 1)%Z by (apply lt_IZR; nra). assert (n = 0)%Z by lia. subst n. lra.
Qed.
(** The arc as a counterclockwise one. *)
Definition first_angle (d : direction) (f l : R) : R := match d with Counterclockwise => f | Clockwise => f - l end.
Lemma on_arc_ccw a r f l p : arc_is a r f l -> on_arc a p <-> ccw_arc (a_center a) r (first_angle (a_dir a) f l) l p.
Proof.
  intro H. split.
  - intros (r' & f' & l' & t & H' & Ht & ->). destruct (arc_unique _ _ _ _ _ _ _ H' H) as (-> & -> & k & ->).
    unfold first_angle, turning. destruct (a_dir a).
    + exists (l - t). split; [lra|]. rewrite <- (at_angle_k _ _ (f - l + (l - t)) k). f_equal. ring.
    + exists t. split; [lra|]. rewrite <- (at_angle_k _ _ (f + t) k). f_equal. ring.
  - intros (t & Ht & ->). unfold first_angle. destruct (a_dir a) eqn:D.
    + exists r, f, l, (l - t). split; [exact H|]. split; [lra|]. rewrite D. unfold turning. f_equal. ring.
    + exists r, f, l, t. split; [exact H|]. split; [lra|]. rewrite D. reflexivity.
Qed.
Lemma bounds_ext b s s' : (forall p, s p <-> s' p) -> bounds b s -> bounds b s'.
Proof. intros X H. apply (bounds_between b s s' H); [apply X|]. intros p Hp. apply (proj1 H), X, Hp. Qed.
Lemma extremes_eq a : a_quad a = MultiQuadrant -> extremes a =
  ext_points (a_center a) (radius a) (match a_dir a with Counterclockwise => theta0 a | Clockwise => theta1 a end)
    (match a_dir a with Counterclockwise => theta1 a | Clockwise => theta0 a end).
Proof. intro Q. unfold extremes, ext_points. rewrite Q. destruct (a_center a), (a_dir a); reflexivity. Qed.
Lemma arc0_bounds a r f l : a_quad a = MultiQuadrant -> arc_is a r f l -> bounds (arc_box0 a) (on_arc a).
Proof.
  intros Q H. apply (bounds_ext _ _ _ (fun p => iff_sym (on_arc_ccw a r f l p H))). unfold arc_box0. rewrite (extremes_eq a Q).
  destruct H as (Hr & Hl & S & E). rewrite (radius_is a r f) by (auto; lra).
  destruct (theta0_is a r f Hr S) as [k Ek], (theta1_is a r _ Hr E) as [m Em].
  pose proof (theta0_range a) as R0. pose proof (theta1_range a) as R1.
  set (t0 := theta0 a) in *. set (t1 := theta1 a) in *. unfold first_angle, turning in *. destruct (a_dir a).
  - rewrite Em. apply (bounds_ext _ _ _ (fun p => iff_sym (ccw_shift _ _ _ _ m p))).
    apply ccw_bounds with t0; auto.
    + apply wrap with (k - m)%Z; auto. rewrite minus_IZR. lra.
    + intro x. cbn [In]. replace (at_angle (a_center a) r t1) with (a_end a).
      * replace (at_angle (a_center a) r (t1 + l)) with (a_start a); [intuition|].
        rewrite S, <- (at_angle_k _ _ (t1 + l) m). f_equal. lra.
      * rewrite E, Em, at_angle_k. reflexivity.
  - rewrite Ek. apply (bounds_ext _ _ _ (fun p => iff_sym (ccw_shift _ _ _ _ k p))).
    apply ccw_bounds with t1; auto.
    + apply wrap with (m - k)%Z; auto. rewrite minus_IZR. lra.
    + intro x. cbn [In]. replace (at_angle (a_center a) r t0) with (a_start a).
      * replace (at_angle (a_center a) r (t0 + l)) with (a_end a); [intuition|].
        rewrite E, <- (at_angle_k _ _ (t0 + l) k). f_equal. lra.
      * rewrite S, Ek, at_angle_k. reflexivity.
Qed.

Lemma arc_round_bounds a r f l ar : a_quad a = MultiQuadrant -> arc_is a r f l -> 0 <= ar ->
  bounds (arc_box a (Round ar)) (stroke (on_arc a) (disc (0, 0) ar)).
Proof.
  intros Q H Ha. unfold arc_box. rewrite grow_sum. apply stroke_bounds; [now apply (arc0_bounds a r f l)|]. exact (disc_bounds (0, 0) ar Ha).
Qed.
Lemma arc_sized_encloses a r f l w h : a_quad a = MultiQuadrant -> arc_is a r f l -> 0 <= w -> 0 <= h ->
  encloses (arc_box a (Sized w h)) (stroke (on_arc a) (oblong w h)).
Proof.
  intros Q H Hw Hh. destruct (stroke_bounds _ _ _ _ (arc0_bounds a r f l Q H) (oblong_bounds w h Hw Hh)) as [E _].
  intros p Hp. specialize (E p Hp). revert E. unfold arc_box. rewrite grow_sum. unfold inside, sum_box. cbn [fst snd]. lra.
Qed.
Lemma arc_sized_loose a r f l w h : a_quad a = MultiQuadrant -> arc_is a r f l -> 0 < w -> 0 <= h ->
  ~ touches (arc_box a (Sized w h)) (stroke (on_arc a) (oblong w h)).
Proof.
  intros Q H Hw Hh ((p & Sp & E) & _). destruct (stroke_bounds _ _ _ _ (arc0_bounds a r f l Q H) (oblong_bounds w h (Rlt_le _ _ Hw) Hh)) as [B _].
  specialize (B p Sp). revert B E. unfold arc_box. rewrite grow_sum. unfold inside, sum_box. cbn [fst snd]. lra.
Qed.

Lemma quarters j i : (0 <= i < 4)%Z -> exists m, (i + 4 * m <= j <= i + 4 * m + 3)%Z.
Proof. intro H. exists ((j - i) / 4)%Z. pose proof (Z.div_mod (j - i) 4). pose proof (Z.mod_pos_bound (j - i) 4). lia. Qed.
Lemma quarter_covered b c r t0 l j i : (0 <= i < 4)%Z -> IZR j * (PI / 2) <= t0 -> t0 + l <= IZR j * (PI / 2) + PI / 2 -> covered b c r t0 l (IZR i * (PI / 2)).
Proof.
  intros Hi H0 H1. destruct (quarters j i Hi) as [m [A B]]. right. exists m. pose proof PI_RGT_0.
  assert (A' : IZR i + 4 * IZR m <= IZR j). { rewrite <- mult_IZR, <- plus_IZR. now apply IZR_le. }
  assert (B' : IZR j <= IZR i + 4 * IZR m + 3). { rewrite <- mult_IZR, <- !plus_IZR. now apply IZR_le. }
  split; nra.
Qed.
Lemma quadrant_bounds a : a_quad a = SingleQuadrant -> in_one_quadrant a -> bounds (arc_box0 a) (on_arc a).
Proof.
  intros Q (r & f & l & j & H & F & E). pose proof (fun p => on_arc_ccw a r f l p H) as O. destruct H as (Hr & Hl & HS & HE).
  apply (bounds_ext _ _ _ (fun p => iff_sym (O p))). clear O.
  assert (B : bounds (arc_box0 a) (fun p => p = a_start a \/ p = a_end a)).
  { unfold arc_box0, extremes. destruct (a_center a). rewrite Q. eapply bounds_ext; [|apply points_bounds]. intro p. cbn. intuition. }
  set (u := first_angle (a_dir a) f l). 
  assert (U : (at_angle (a_center a) r u = a_start a /\ at_angle (a_center a) r (u + l) = a_end a) \/
              (at_angle (a_center a) r u = a_end a /\ at_angle (a_center a) r (u + l) = a_start a)).
  { rewrite HS, HE. unfold u, first_angle, turning. destruct (a_dir a); [right|left]; split; f_equal; ring. }
  assert (V : IZR j * (PI / 2) <= u /\ u + l <= IZR j * (PI / 2) + PI / 2).
  { unfold u, first_angle. unfold turning in E. destruct (a_dir a); lra. }
  apply (bounds_between _ _ _ B).
  - intros p [-> | ->]; destruct U as [[A C]|[A C]]; rewrite <- ?A, <- ?C.
    + exists 0. rewrite Rplus_0_r, A. split; [lra|congruence].
    + exists l. split; [lra|congruence].
    + exists l. split; [lra|congruence].
    + exists 0. rewrite Rplus_0_r, A. split; [lra|congruence].
  - destruct V as [V1 V2]. apply arc_inside.
    + assumption.
    + apply (proj1 B). destruct U as [[-> _]|[-> _]]; auto.
    + apply (proj1 B). destruct U as [[_ ->]|[_ ->]]; auto.
    + replace 0 with (IZR 0 * (PI / 2)) by ring. apply quarter_covered with j; auto; lia.
    + replace (PI / 2) with (IZR 1 * (PI / 2)) by ring. apply quarter_covered with j; auto; lia.
    + replace PI with (IZR 2 * (PI / 2)) at 1 by field. apply quarter_covered with j; auto; lia.
    + replace (PI * (3 / 2)) with (IZR 3 * (PI / 2)) by field. apply quarter_covered with j; auto; lia.
Qed.
(** From 45 to 135 degrees: a legal single-quadrant arc whose top is not in its box. *)
Definition over_the_top : arc := mkArc (1, 1) (-1, 1) (0, 0) Counterclockwise SingleQuadrant.
Lemma over_the_top_is : arc_is over_the_top (sqrt 2) (PI / 4) (PI / 2).
Proof.
  pose proof PI_RGT_0. assert (0 < sqrt 2) by (apply sqrt_lt_R0; lra). split; [assumption|]. split; [lra|].
  unfold over_the_top, at_angle, turning. cbn [a_start a_end a_center a_dir fst snd]. split.
  - rewrite cos_PI4, sin_PI4. apply pt_eq; field; lra.
  - replace (PI / 4 + PI / 2) with (PI / 2 + PI / 4) by ring. rewrite <- cos_sin.
    replace (cos (PI / 2 + PI / 4)) with (- sin (PI / 4)) by (rewrite cos_plus, cos_PI2, sin_PI2; ring).
    rewrite cos_PI4, sin_PI4. apply pt_eq; field; lra.
Qed.
Lemma over_the_top_misses : ~ encloses (arc_box0 over_the_top) (on_arc over_the_top).
Proof.
  intro E. pose proof PI_RGT_0. assert (on_arc over_the_top (at_angle (0, 0) (sqrt 2) (PI / 2))) as O.
  { exists (sqrt 2), (PI / 4), (PI / 2), (PI / 4). split; [apply over_the_top_is|]. split; [lra|]. cbn [over_the_top a_center a_dir turning]. f_equal. field. }
  apply E in O. destruct O as [_ [_ O]]. rewrite at_90 in O. unfold arc_box0, points_box, BoxModel.points_box in O. cbn in O.
  rewrite Rmax_left in O by lra. assert (1 < sqrt 2); [|lra]. rewrite <- sqrt_1 at 1. apply sqrt_lt_1; lra.
Qed.

(** ** The sweep of an arc *)
Lemma theta0_eq a r f : 0 < r -> 0 <= f < 2 * PI -> a_start a = at_angle (a_center a) r f -> theta0 a = f.
Proof.
  intros Hr Hf E. destruct (theta0_is a r f Hr E) as [k Ek]. pose proof (theta0_range a). pose proof PI_RGT_0.
  assert (-1 < k)%Z by (apply lt_IZR; nra). assert (k < 1)%Z by (apply lt_IZR; nra). assert (k = 0)%Z by lia. subst k. lra.
Qed.
Lemma theta1_eq a r f : 0 < r -> 0 <= f < 2 * PI -> a_end a = at_angle (a_center a) r f -> theta1 a = f.
Proof.
  intros Hr Hf E. destruct (theta1_is a r f Hr E) as [k Ek]. pose proof (theta1_range a). pose proof PI_RGT_0.
  assert (-1 < k)%Z by (apply lt_IZR; nra). assert (k < 1)%Z by (apply lt_IZR; nra). assert (k = 0)%Z by lia. subst k. lra.
Qed.
Lemma rmod_eq a b x k : 0 < b -> 0 <= x < b -> a = x + b * IZR k -> rmod a b = x.
Proof.
  intros Hb Hx E. pose proof (rmod_range a b Hb) as H. destruct (rmod_k a b) as [m M]. rewrite M in *.
  assert (m - k = 0)%Z; [|replace m with k by lia; lra].
  assert (D : IZR (m - k) = IZR m - IZR k) by apply minus_IZR.
  assert (-1 < m - k)%Z by (apply lt_IZR; rewrite D; nra). assert (m - k < 1)%Z by (apply lt_IZR; rewrite D; nra). lia.
Qed.
Lemma sweep_lemma a r f l : arc_is a r f l -> l < 2 * PI ->
  sweep_angle a = match a_dir a with
                  | Clockwise => l
                  | Counterclockwise => if Rlt_dec (theta0 a + l) (2 * PI) then l else 2 * PI - l
                  end.
Proof.
  intros (Hr & Hl & S & E) L. destruct (theta0_is a r f Hr S) as [k Ek], (theta1_is a r _ Hr E) as [m Em].
  pose proof (theta0_range a) as R0. pose proof (theta1_range a) as R1. pose proof PI_RGT_0. unfold sweep_angle. unfold turning in Em. destruct (a_dir a).
  - destruct (wrap (theta1 a) (theta0 a) l (k - m)) as [W|W]; auto; [rewrite minus_IZR; lra| |].
    + rewrite Rabs_right by lra. apply rmod_eq with 1%Z; lra.
    + rewrite Rabs_right by lra. apply rmod_eq with 0%Z; lra.
  - destruct (wrap (theta0 a) (theta1 a) l (m - k)) as [W|W]; auto; [rewrite minus_IZR; lra| |]; destruct (Rlt_dec _ _); try lra.
    + rewrite Rabs_right; lra.
    + rewrite Rabs_left; lra.
Qed.
Lemma sweep_full a r f : arc_is a r f (2 * PI) -> sweep_angle a = 0.
Proof.
  intros (Hr & Hl & S & E). destruct (theta0_is a r f Hr S) as [k Ek], (theta1_is a r _ Hr E) as [m Em].
  pose proof (theta0_range a) as R0. pose proof (theta1_range a) as R1. pose proof PI_RGT_0. unfold sweep_angle. unfold turning in Em. destruct (a_dir a).
  - destruct (wrap (theta1 a) (theta0 a) (2 * PI) (k - m)) as [W|W]; auto; [rewrite minus_IZR; lra| |]; [lra|].
    rewrite Rabs_right by lra. apply rmod_eq with 1%Z; lra.
  - destruct (wrap (theta0 a) (theta1 a) (2 * PI) (m - k)) as [W|W]; auto; [rewrite minus_IZR; lra| |]; [lra|].
    replace (theta1 a - theta0 a) with 0 by lra. apply Rabs_R0.
Qed.

(** ** Ellipses *)
Lemma cauchy a b u v : a ^ 2 + b ^ 2 <= 1 -> - sqrt (u * u + v * v) <= a * u + b * v <= sqrt (u * u + v * v).
Proof.
  intro H. assert (P : 0 <= u * u + v * v) by nra. apply sq_le_abs; [apply sqrt_pos|].
  rewrite (pow2_sqrt _ P). assert ((a * u + b * v) ^ 2 + (a * v - b * u) ^ 2 = (a ^ 2 + b ^ 2) * (u * u + v * v)) by ring. pose proof (pow2_ge_0 (a * v - b * u)). nra.
Qed.
Lemma cauchy_tight u v : exists a b, a ^ 2 + b ^ 2 <= 1 /\ a * u + b * v = sqrt (u * u + v * v).
Proof.
  set (r := sqrt _). assert (P : 0 <= u * u + v * v) by nra. assert (E : r * r = u * u + v * v) by (apply sqrt_sqrt; lra).
  destruct (Req_dec r 0) as [Z|Z].
  - exists 0, 0. split; lra.
  - exists (u / r), (v / r). split.
    + right. replace ((u / r) ^ 2 + (v / r) ^ 2) with ((u * u + v * v) / (r * r)) by (field; lra). rewrite <- E. field. lra.
    + replace (u / r * u + v / r * v) with ((u * u + v * v) / r) by (field; lra). rewrite <- E. field. lra.
Qed.
Lemma ellipse_bounds c rot w h : bounds (ellipse_box c rot w h) (turned c rot (oval w h)).
Proof.
  unfold ellipse_box, around, ellipse_width, ellipse_height. rewrite radians_eq.
  set (th := rot * PI / 180). replace (cos (th + PI / 2)) with (- sin th) by (rewrite cos_plus, cos_PI2, sin_PI2; ring).
  replace (sin (th + PI / 2)) with (cos th) by (rewrite sin_plus, cos_PI2, sin_PI2; ring).
  assert (D : forall x, 2 * x / 2 = x) by (intro; field). rewrite !D.
  set (ux := w / 2 * cos th). set (vx := h / 2 * - sin th). set (uy := w / 2 * sin th). set (vy := h / 2 * cos th).
  assert (T : forall a b, a ^ 2 + b ^ 2 <= 1 -> turned c rot (oval w h) (fst c + (a * ux + b * vx), snd c + (a * uy + b * vy))).
  { intros a b H. exists (a * (w / 2), b * (h / 2)). split; [exists a, b; auto|]. fold th. cbn [fst snd]. unfold ux, vx, uy, vy. apply pt_eq; ring. }
  split.
  - intros p (q & (a & b & H & ->) & ->). fold th. unfold inside. cbn [fst snd].
    pose proof (cauchy a b ux vx H) as X. pose proof (cauchy a b uy vy H) as Y. unfold ux, vx, uy, vy in *. lra.
  - unfold touches. cbn [fst snd]. destruct (cauchy_tight ux vx) as (a & b & H & X), (cauchy_tight uy vy) as (a' & b' & H' & Y).
    split; [eexists; split; [apply (T (- a) (- b)); replace ((- a) ^ 2) with (a ^ 2) by ring; replace ((- b) ^ 2) with (b ^ 2) by ring; exact H|cbn; rewrite <- X; ring]|].
    split; [eexists; split; [apply (T a b H)|cbn; rewrite <- X; ring]|].
    split; [eexists; split; [apply (T (- a') (- b')); replace ((- a') ^ 2) with (a' ^ 2) by ring; replace ((- b') ^ 2) with (b' ^ 2) by ring; exact H'|cbn; rewrite <- Y; ring]|].
    eexists; split; [apply (T a' b' H')|cbn; rewrite <- Y; ring].
Qed.

(** ** Rotated rectangles, obrounds and diamonds *)
Lemma rect_rotated_iff c rot w h : 0 < w -> 0 < h ->
  encloses (rect_box c rot w h) (turned c rot (oblong w h)) <-> 0 <= cos (rot * PI / 180) /\ 0 <= sin (rot * PI / 180).
Proof.
  intros Hw Hh. unfold rect_box, BoxModel.rect_box, around, aa_width, aa_height, half. rewrite radians_eq.
  set (k := cos _). set (s := sin _). split.
  - intro E. assert (T : forall x y, - (w / 2) <= x <= w / 2 -> - (h / 2) <= y <= h / 2 -> turned c rot (oblong w h) (fst c + (k * x - s * y), snd c + (s * x + k * y))).
    { intros x y Hx Hy. exists (x, y). split; [split; assumption|reflexivity]. }
    assert (X : forall x y, - (w / 2) <= x <= w / 2 -> - (h / 2) <= y <= h / 2 -> k * x - s * y <= (k * w + s * h) / 2).
    { intros x y Hx Hy. destruct (E _ (T x y Hx Hy)) as [[_ B] _]. cbn [fst snd] in B. lra. }
    pose proof (X (- (w / 2)) (- (h / 2))). pose proof (X (w / 2) (h / 2)). split; nra.
  - intros [Hk Hs] p ([x y] & [Hx Hy] & ->). cbn [fst snd] in *. unfold inside. cbn [fst snd]. fold k s. nra.
Qed.
Lemma turned_mono c rot (s s' : shape) : (forall p, s p -> s' p) -> forall p, turned c rot s p -> turned c rot s' p.
Proof. intros H p (q & Hq & ->). exists q. auto. Qed.
Lemma capsule_oblong w h p : 0 <= w -> 0 <= h -> capsule w h p -> oblong w h p.
Proof. intros Hw Hh Hp. destruct (proj1 (capsule_bounds w h Hw Hh) p Hp) as [X Y]. cbn [fst snd] in X, Y. unfold oblong. lra. Qed.
Lemma rhombus_bounds w h : 0 <= w -> 0 <= h -> bounds ((0 - w / 2, 0 + w / 2), (0 - h / 2, 0 + h / 2)) (rhombus w h).
Proof.
  intros Hw Hh. split.
  - intros p (a & b & H & ->). unfold inside. cbn [fst snd]. pose proof (Rabs_pos a). pose proof (Rabs_pos b).
    assert (-1 <= a <= 1). { pose proof (Rle_abs a). pose proof (Rle_abs (- a)) as N. rewrite Rabs_Ropp in N. lra. }
    assert (-1 <= b <= 1). { pose proof (Rle_abs b). pose proof (Rle_abs (- b)) as N. rewrite Rabs_Ropp in N. lra. }
    nra.
  - assert (A : Rabs 1 + Rabs 0 <= 1) by (rewrite Rabs_R1, Rabs_R0; lra). assert (B : Rabs (-1) + Rabs 0 <= 1) by (rewrite (Rabs_left (-1)), Rabs_R0 by lra; lra).
    unfold touches. cbn [fst snd]. split; [exists (-1 * (w / 2), 0 * (h / 2)); split; [exists (-1), 0; auto|cbn; lra]|].
    split; [exists (1 * (w / 2), 0 * (h / 2)); split; [exists 1, 0; auto|cbn; lra]|].
    rewrite Rplus_comm in A, B. split; [exists (0 * (w / 2), -1 * (h / 2)); split; [exists 0, (-1); auto|cbn; lra]|].
    exists (0 * (w / 2), 1 * (h / 2)); split; [exists 0, 1; auto|cbn; lra].
Qed.
Lemma diamond_unrotated c w h : 0 <= w -> 0 <= h -> bounds (rect_box c 0 w h) (turned c 0 (rhombus w h)).
Proof. intros Hw Hh. rewrite rect_box_0. apply (turned_0 c _ _ (rhombus_bounds w h Hw Hh)). Qed.
Lemma obround_quarter c rot w h : 0 <= w -> 0 <= h -> 0 <= rot <= 90 -> encloses (rect_box c rot w h) (turned c rot (capsule w h)).
Proof.
  intros Hw Hh Hr p Hp. apply (proj1 (rect_quarter c rot w h Hw Hh Hr)). revert p Hp. apply turned_mono. intros p. now apply capsule_oblong.
Qed.
Lemma diamond_quarter c rot w h : 0 <= w -> 0 <= h -> 0 <= rot <= 90 -> encloses (rect_box c rot w h) (turned c rot (rhombus w h)).
Proof.
  intros Hw Hh Hr p Hp. apply (proj1 (rect_quarter c rot w h Hw Hh Hr)). revert p Hp. apply turned_mono. intros p Hp.
  destruct (proj1 (rhombus_bounds w h Hw Hh) p Hp) as [X Y]. cbn [fst snd] in X, Y. unfold oblong. lra.
Qed.
Lemma rect_half_turn : ~ encloses (rect_box (0, 0) 180 2 1) (turned (0, 0) 180 (oblong 2 1)).
Proof.
  rewrite rect_rotated_iff by lra. intros [H _]. replace (180 * PI / 180) with PI in H by field. rewrite cos_PI in H. lra.
Qed.

(** ** Polygons *)
Lemma vertex_disc c n r rot i : 0 <= r -> disc c r (polygon_vertex c n r rot i).
Proof.
  intro Hr. unfold disc, polygon_vertex. pose proof (rotate_isometry (fst c + r, snd c) c (rot + 360 / INR n * INR i) c) as H.
  rewrite rotate_center in H. rewrite H. unfold dist2. cbn [fst snd]. right. ring.
Qed.
Lemma polygon_encloses c n r rot : 0 <= r -> encloses (polygon_box c r) (polygon c n (polygon_vertex c n r rot)).
Proof.
  intros Hr p (i & s & t & _ & Hs & Ht & Hst & ->).
  pose proof (proj1 (disc_bounds c r Hr) _ (vertex_disc c n r rot i Hr)) as [A B]. pose proof (proj1 (disc_bounds c r Hr) _ (vertex_disc c n r rot (S i) Hr)) as [A' B'].
  set (v := polygon_vertex c n r rot i) in *. set (v' := polygon_vertex c n r rot (S i)) in *. unfold inside, polygon_box, BoxModel.polygon_box, around. cbn [fst snd] in *. nra.
Qed.

(** ** Boxes around boxes *)
Lemma boxes_bounds l s b : Forall2 bounds l s -> boxes_box l = Some b -> bounds b (all_shapes s).
Proof.
  destruct l as [|b0 r]; [discriminate|]. intros F E. injection E as <-.
  match goal with |- bounds ?b _ => change b with
    (((fold_left Rmin (map (fun x : rbox => fst (fst x)) r) (fst (fst b0)), fold_left Rmax (map (fun x : rbox => snd (fst x)) r) (snd (fst b0))),
      (fold_left Rmin (map (fun x : rbox => fst (snd x)) r) (fst (snd b0)), fold_left Rmax (map (fun x : rbox => snd (snd x)) r) (snd (snd b0)))) : rbox) end.
  destruct (fold_min (map (fun x : rbox => fst (fst x)) r) (fst (fst b0))) as (A1 & B1 & C1), (fold_max (map (fun x : rbox => snd (fst x)) r) (snd (fst b0))) as (A2 & B2 & C2).
  destruct (fold_min (map (fun x : rbox => fst (snd x)) r) (fst (snd b0))) as (A3 & B3 & C3), (fold_max (map (fun x : rbox => snd (snd x)) r) (snd (snd b0))) as (A4 & B4 & C4).
  assert (P : forall b, In b (b0 :: r) -> exists s', In s' s /\ bounds b s').
  { clear - F. induction F; cbn; [contradiction|]. intros b [<- |I]; [exists y; auto|]. destruct (IHF b I) as (s' & ? & ?). eauto. }
  assert (P' : forall s', In s' s -> exists b, In b (b0 :: r) /\ bounds b s').
  { clear - F. induction F; cbn; [contradiction|]. intros s' [<- |I]; [exists x; auto|]. destruct (IHF s' I) as (b & ? & ?). eauto. }
  split.
  - intros p (s' & I & Hp). destruct (P' _ I) as (b & Ib & Bb). destruct (proj1 Bb p Hp) as [X Y]. unfold inside. cbn [fst snd].
    destruct Ib as [<- |Ib]; [lra|]. pose proof (B1 _ (in_map _ _ _ Ib)). pose proof (B2 _ (in_map _ _ _ Ib)). pose proof (B3 _ (in_map _ _ _ Ib)). pose proof (B4 _ (in_map _ _ _ Ib)). cbn beta in *. lra.
  - unfold touches. cbn [fst snd].
    apply (in_map_of (fun x : rbox => fst (fst x))) in C1. apply (in_map_of (fun x : rbox => snd (fst x))) in C2.
    apply (in_map_of (fun x : rbox => fst (snd x))) in C3. apply (in_map_of (fun x : rbox => snd (snd x))) in C4.
    destruct C1 as (b1 & I1 & E1), C2 as (b2 & I2 & E2), C3 as (b3 & I3 & E3), C4 as (b4 & I4 & E4).
    destruct (P _ I1) as (s1 & J1 & _ & (p1 & Q1 & F1) & _). destruct (P _ I2) as (s2 & J2 & _ & _ & (p2 & Q2 & F2) & _).
    destruct (P _ I3) as (s3 & J3 & _ & _ & _ & (p3 & Q3 & F3) & _). destruct (P _ I4) as (s4 & J4 & _ & _ & _ & _ & (p4 & Q4 & F4)).
    split; [exists p1; split; [exists s1; auto|congruence]|]. split; [exists p2; split; [exists s2; auto|congruence]|].
    split; [exists p3; split; [exists s3; auto|congruence]|]. exists p4; split; [exists s4; auto|congruence].
Qed.
Lemma surrounded_inside b s : encloses b s -> encloses b (surrounded s).
Proof.
  intros E p ((q & r & Sq & Sr & X) & (q' & r' & Sq' & Sr' & Y)). destruct (E _ Sq), (E _ Sr), (E _ Sq'), (E _ Sr'). unfold inside. lra.
Qed.
