From Coq Require Import Lra Lia.
From Verif Require Import GeomModel GeomSpec GeomProofs CenterModel CenterSpec.
Import ListNotations.
Open Scope R_scope.
Open Scope list_scope.

Section Choice.
Variables (d : direction) (s e : pt).
Definition fits (c : pt) : Prop := 0 <= sweep d s e c <= PI / 2 + 1 / 1000000.
Lemma try_yes st c : fits c -> radius_error s e c < snd st -> try_center d s e st c = (Some c, radius_error s e c).
Proof.
  intros [F G] H. unfold try_center. apply ltb_true in H. apply leb_true in F, G. rewrite H, F, G. reflexivity.
Qed.
Lemma try_no st c : ~ fits c \/ snd st <= radius_error s e c -> try_center d s e st c = st.
Proof.
  intros H. unfold try_center. destruct (ltb _ _) eqn:E1; [|reflexivity]. destruct (leb 0 _) eqn:E2; [|reflexivity]. destruct (leb _ (PI / 2 + _)) eqn:E3; [|reflexivity].
  exfalso. apply ltb_true in E1. apply leb_true in E2, E3. unfold fits in H. destruct H; [tauto|lra].
Qed.
Lemma error_nonneg c : 0 <= radius_error s e c. Proof. apply Rabs_pos. Qed.
Lemma try_cases st c : (fits c /\ radius_error s e c < snd st /\ try_center d s e st c = (Some c, radius_error s e c)) \/ try_center d s e st c = st.
Proof.
  destruct (Rlt_dec (radius_error s e c) (snd st)) as [L|L]; [|right; apply try_no; right; lra].
  destruct (Rle_dec 0 (sweep d s e c)) as [A|A]; [|right; apply try_no; left; intros [X _]; lra].
  destruct (Rle_dec (sweep d s e c) (PI / 2 + 1 / 1000000)) as [B|B]; [|right; apply try_no; left; intros [_ X]; lra].
  left. repeat split; auto. apply try_yes; [split; assumption|exact L].
Qed.
(** Once there is no error left nothing changes. *)
Lemma fold_done l : forall o, fold_left (try_center d s e) l (o, 0) = (o, 0).
Proof. induction l as [|c l IH]; intros o; [reflexivity|]. cbn [fold_left]. rewrite try_no; [apply IH|]. right. apply error_nonneg. Qed.
Lemma fold_first c l1 l2 : forall o m, 0 < m -> fits c -> radius_error s e c = 0 -> (forall c', In c' l1 -> fits c' -> radius_error s e c' = 0 -> c' = c) ->
  fst (fold_left (try_center d s e) (l1 ++ c :: l2) (o, m)) = Some c.
Proof.
  induction l1 as [|c' l1 IH]; intros o m M F Z N; cbn [app fold_left].
  - rewrite try_yes by (cbn; auto; lra). rewrite Z, fold_done. reflexivity.
  - destruct (try_cases (o, m) c') as [(F' & L & ->)| ->].
    + pose proof (error_nonneg c'). destruct (Req_dec (radius_error s e c') 0) as [Z'|Z'].
      * rewrite Z', fold_done. cbn. f_equal. apply N; [now left|exact F'|exact Z'].
      * apply IH; auto; [lra|]. intros x I. apply N. now right.
    + apply IH; auto. intros x I. apply N. now right.
Qed.
Lemma fold_fits l : forall o m, match o with Some c => fits c | None => True end ->
  match fst (fold_left (try_center d s e) l (o, m)) with Some c => fits c | None => True end.
Proof.
  induction l as [|c l IH]; intros o m H; cbn [fold_left]; [exact H|]. destruct (try_cases (o, m) c) as [(F & _ & ->)| ->]; apply IH; auto.
Qed.
End Choice.

(** ** Candidates on the same radius *)
Lemma quarter_facts d s e o c r f l : quarter_arc d s e o c r f l -> 0 < r /\ 0 < l < PI /\ s = at_angle c r f /\ e = at_angle c r (turning d f l) /\ radius_error s e c = 0.
Proof.
  intros [(Hr & Hl & S & E) Sm _ _]. cbn in S, E. pose proof PI_RGT_0. split; [exact Hr|]. split; [lra|]. split; [exact S|]. split; [exact E|].
  unfold radius_error, sq_distance. rewrite S, E. unfold at_angle. cbn [fst snd].
  match goal with |- Rabs ?x = 0 => replace x with (r ^ 2 * (sin f * sin f + cos f * cos f) - r ^ 2 * (sin (turning d f l) * sin (turning d f l) + cos (turning d f l) * cos (turning d f l))) by ring end.
  rewrite !sc2. replace (r ^ 2 * 1 - r ^ 2 * 1) with 0 by ring. apply Rabs_R0.
Qed.
(** Start and end differ: the turn of less than a half has a positive sine. *)
Lemma quarter_cross d s e o c r f l : quarter_arc d s e o c r f l ->
  0 < match d with Counterclockwise => 1 | Clockwise => -1 end * ((fst s - fst c) * (snd e - snd c) - (snd s - snd c) * (fst e - fst c)).
Proof.
  intros Q. destruct (quarter_facts _ _ _ _ _ _ _ _ Q) as (Hr & Hl & -> & -> & _). unfold at_angle. cbn [fst snd]. assert (P : 0 < sin l) by (apply sin_gt_0; lra).
  destruct d; cbn [turning].
  - match goal with |- 0 < ?x => replace x with (r ^ 2 * (sin f * cos (f - l) - cos f * sin (f - l))) by ring end. rewrite <- sin_minus. replace (f - (f - l)) with l by ring. apply Rmult_lt_0_compat; [nra|exact P].
  - match goal with |- 0 < ?x => replace x with (r ^ 2 * (sin (f + l) * cos f - cos (f + l) * sin f)) by ring end. rewrite <- sin_minus. replace (f + l - f) with l by ring. apply Rmult_lt_0_compat; [nra|exact P].
Qed.
Definition mirror_x (s c : pt) : pt := (2 * fst s - fst c, snd c).
Definition mirror_y (s c : pt) : pt := (fst c, 2 * snd s - snd c).
Lemma mirrored_x d s e o c r f l : quarter_arc d s e o c r f l -> fst s = fst e -> arc_is (mkArc s e (mirror_x s c) d SingleQuadrant) r (PI - f) (2 * PI - l).
Proof.
  intros Q X. destruct (quarter_facts _ _ _ _ _ _ _ _ Q) as (Hr & Hl & S & E & _). pose proof PI_RGT_0. split; [exact Hr|]. split; [lra|]. cbn [a_start a_end a_center a_dir].
  assert (T1 : forall t, cos (PI - t) = - cos t /\ sin (PI - t) = sin t) by (intros t; rewrite cos_minus, sin_minus, cos_PI, sin_PI; split; ring).
  split.
  - rewrite (surjective_pairing s). unfold at_angle, mirror_x. cbn [fst snd]. destruct (T1 f) as [-> ->]. rewrite S. unfold at_angle. cbn [fst snd]. apply pt_eq; ring.
  - transitivity (at_angle (mirror_x s c) r (PI - turning d f l)).
    + rewrite (surjective_pairing e). unfold at_angle, mirror_x. cbn [fst snd]. destruct (T1 (turning d f l)) as [-> ->]. rewrite X. rewrite E. unfold at_angle. cbn [fst snd]. apply pt_eq; ring.
    + destruct d; cbn [turning].
      * replace (PI - f - (2 * PI - l)) with (PI - (f - l) + 2 * IZR (-1) * PI) by ring. now rewrite at_angle_k.
      * replace (PI - f + (2 * PI - l)) with (PI - (f + l) + 2 * IZR 1 * PI) by ring. now rewrite at_angle_k.
Qed.
Lemma mirrored_y d s e o c r f l : quarter_arc d s e o c r f l -> snd s = snd e -> arc_is (mkArc s e (mirror_y s c) d SingleQuadrant) r (- f) (2 * PI - l).
Proof.
  intros Q X. destruct (quarter_facts _ _ _ _ _ _ _ _ Q) as (Hr & Hl & S & E & _). pose proof PI_RGT_0. split; [exact Hr|]. split; [lra|]. cbn [a_start a_end a_center a_dir].
  split.
  - rewrite (surjective_pairing s). unfold at_angle, mirror_y. cbn [fst snd]. rewrite cos_neg, sin_neg, S. unfold at_angle. cbn [fst snd]. apply pt_eq; ring.
  - transitivity (at_angle (mirror_y s c) r (- turning d f l)).
    + rewrite (surjective_pairing e). unfold at_angle, mirror_y. cbn [fst snd]. rewrite cos_neg, sin_neg, X, E. unfold at_angle. cbn [fst snd]. apply pt_eq; ring.
    + destruct d; cbn [turning].
      * replace (- f - (2 * PI - l)) with (- (f - l) + 2 * IZR (-1) * PI) by ring. now rewrite at_angle_k.
      * replace (- f + (2 * PI - l)) with (- (f + l) + 2 * IZR 1 * PI) by ring. now rewrite at_angle_k.
Qed.
Lemma abs_zero x : Rabs x = 0 -> x = 0.
Proof. intros H. destruct (Req_dec x 0) as [E|E]; [exact E|]. destruct (Rabs_no_R0 _ E H). Qed.
(** The candidates without error: the centre, and its mirror image when the chord is parallel to an axis. *)
Lemma same_radius d s e o c r f l c' : quarter_arc d s e o c r f l -> In c' (map (test_center s o) factors) -> radius_error s e c' = 0 ->
  c' = c \/ (fst s = fst e /\ c' = mirror_x s c) \/ (snd s = snd e /\ c' = mirror_y s c).
Proof.
  intros Q I Z. destruct (quarter_facts _ _ _ _ _ _ _ _ Q) as (Hr & Hl & _ & _ & Z0). pose proof (quarter_cross _ _ _ _ _ _ _ _ Q) as X. destruct Q as [_ _ [Ox Dx] [Oy Dy]].
  unfold radius_error, sq_distance in Z, Z0. apply abs_zero in Z, Z0.
  assert (C : (fst c' = fst c \/ fst c' = 2 * fst s - fst c) /\ (snd c' = snd c \/ snd c' = 2 * snd s - snd c)).
  { cbn [map factors] in I. unfold test_center in I. cbn [fst snd] in I. destruct I as [<-|[<-|[<-|[<-|[]]]]]; cbn [fst snd]; destruct Dx as [-> | ->], Dy as [-> | ->]; split; lra. }
  destruct c' as [x' y'], c as [x y], s as [sx sy], e as [ex ey]. unfold mirror_x, mirror_y. cbn [fst snd] in *.
  destruct C as [[-> | ->] [-> | ->]].
  - now left.
  - assert (M : (ey - sy) * (sy - y) = 0) by lra. apply Rmult_integral in M as [M|M]; [right; right; split; [lra|reflexivity]|left; f_equal; lra].
  - assert (M : (ex - sx) * (sx - x) = 0) by lra. apply Rmult_integral in M as [M|M]; [right; left; split; [lra|reflexivity]|left; f_equal; lra].
  - exfalso. assert (M : (ex - sx) * (ex - sx) + (ey - sy) * (ey - sy) = 0) by lra. destruct (Rplus_sqr_eq_0 (ex - sx) (ey - sy)) as [M1 M2]; [exact M|]. assert (ex = sx) by lra. assert (ey = sy) by lra. subst ex ey. destruct d; lra.
Qed.
Lemma center_tested d s e o c r f l : quarter_arc d s e o c r f l -> In c (map (test_center s o) factors).
Proof.
  intros [_ _ [_ Dx] [_ Dy]]. cbn [map factors]. unfold test_center. cbn [fst snd]. destruct c as [x y]. cbn [fst snd] in *.
  destruct Dx as [-> | ->], Dy as [-> | ->]; [left|right; left|right; right; left|right; right; right; left]; f_equal; ring.
Qed.
Lemma maxsize_pos : 0 < maxsize. Proof. unfold maxsize. lra. Qed.

(** ** Clockwise *)
Lemma pi_big : 3 < PI. Proof. pose proof PI2_3_2. lra. Qed.
Lemma cw_lemma s e o c r f l : quarter_arc Clockwise s e o c r f l -> find_center SingleQuadrant Clockwise s e o = Some c.
Proof.
  intros Q. destruct (quarter_facts _ _ _ _ _ _ _ _ Q) as (Hr & Hl & S & E & Z). assert (Sm := q_small _ _ _ _ _ _ _ _ Q). pose proof pi_big.
  assert (Ft : fits Clockwise s e c).
  { unfold fits, sweep. rewrite (sweep_lemma _ r f l (q_arc _ _ _ _ _ _ _ _ Q)) by lra. cbn [a_dir]. lra. }
  unfold find_center. destruct (in_split _ _ (center_tested _ _ _ _ _ _ _ _ Q)) as (l1 & l2 & Es). rewrite Es. apply fold_first; [exact maxsize_pos|exact Ft|exact Z|].
  intros c' I F' Z'. assert (I' : In c' (map (test_center s o) factors)) by (rewrite Es; apply in_or_app; now left).
  destruct (same_radius _ _ _ _ _ _ _ _ _ Q I' Z') as [A|[[A ->]|[A ->]]]; [exact A| |]; exfalso; revert F'; unfold fits, sweep.
  - rewrite (sweep_lemma _ r _ _ (mirrored_x _ _ _ _ _ _ _ _ Q A)) by lra. cbn [a_dir]. lra.
  - rewrite (sweep_lemma _ r _ _ (mirrored_y _ _ _ _ _ _ _ _ Q A)) by lra. cbn [a_dir]. lra.
Qed.

(** ** Counterclockwise *)
Lemma ccw_lemma s e o c r f l : quarter_arc Counterclockwise s e o c r f l -> 0 <= f -> f + l < 2 * PI -> (snd s <> snd e \/ fst s < fst e) ->
  find_center SingleQuadrant Counterclockwise s e o = Some c.
Proof.
  intros Q F0 F1 H. destruct (quarter_facts _ _ _ _ _ _ _ _ Q) as (Hr & Hl & S & E & Z). assert (Sm := q_small _ _ _ _ _ _ _ _ Q). pose proof pi_big.
  assert (T0 : theta0 (mkArc s e c Counterclockwise SingleQuadrant) = f) by (apply theta0_eq with r; [exact Hr|lra|exact S]).
  assert (Ft : fits Counterclockwise s e c).
  { unfold fits, sweep. rewrite (sweep_lemma _ r f l (q_arc _ _ _ _ _ _ _ _ Q)) by lra. cbn [a_dir]. rewrite T0. destruct (Rlt_dec _ _); lra. }
  assert (Mx : fst s = fst e -> ~ fits Counterclockwise s e (mirror_x s c)).
  { intros A. unfold fits, sweep. rewrite (sweep_lemma _ r _ _ (mirrored_x _ _ _ _ _ _ _ _ Q A)) by lra. cbn [a_dir].
    (* the arc is symmetric about the left of its centre *)
    assert (C : cos (f + l) = cos f) by (rewrite S, E in A; unfold at_angle in A; cbn [fst turning] in A; nra).
    assert (Sn : sin (f + l) = - sin f).
    { assert (Rsqr (sin (f + l)) = Rsqr (sin f)) as X by (pose proof (sin2_cos2 (f + l)); pose proof (sin2_cos2 f); rewrite C in *; lra).
      apply Rsqr_eq in X as [X|X]; [|exact X]. exfalso. destruct (same_angle (f + l) f C X) as [k K]. assert (0 < k)%Z by (apply lt_IZR; nra). assert (1 <= k)%Z by lia. apply IZR_le in H2. nra. }
    destruct (same_angle (f + l) (- f)) as [k K]; [now rewrite cos_neg|now rewrite sin_neg|].
    assert (0 < k)%Z by (apply lt_IZR; nra). assert (k < 2)%Z by (apply lt_IZR; nra). assert (k = 1)%Z by lia. subst k.
    assert (T1 : theta0 (mkArc s e (mirror_x s c) Counterclockwise SingleQuadrant) = PI - f).
    { apply theta0_eq with r; [exact Hr|lra|]. apply (mirrored_x _ _ _ _ _ _ _ _ Q A). }
    rewrite T1. destruct (Rlt_dec _ _); lra. }
  unfold find_center. destruct H as [H|H].
  - destruct (in_split _ _ (center_tested _ _ _ _ _ _ _ _ Q)) as (l1 & l2 & Es). rewrite Es. apply fold_first; [exact maxsize_pos|exact Ft|exact Z|].
    intros c' I F' Z'. assert (I' : In c' (map (test_center s o) factors)) by (rewrite Es; apply in_or_app; now left).
    destruct (same_radius _ _ _ _ _ _ _ _ _ Q I' Z') as [A|[[A ->]|[A ->]]]; [exact A|destruct (Mx A F')|contradiction].
  - destruct (Req_dec (snd s) (snd e)) as [A|A].
    + (* the centre is above and to the right of the start: the first candidate *)
      assert (C1 : c = test_center s o (1, 1)).
      { pose proof (quarter_cross _ _ _ _ _ _ _ _ Q) as X. cbn beta iota in X. unfold radius_error, sq_distance in Z. apply abs_zero in Z. destruct Q as [_ _ [Ox Dx] [Oy Dy]].
        destruct c as [x y], s as [sx sy], e as [ex ey], o as [ox oy]. unfold test_center. cbn [fst snd] in *. subst ey.
        assert (x - sx = (ex - sx) / 2) by (assert (M : (ex - sx) * (ex + sx - 2 * x) = 0) by lra; apply Rmult_integral in M as [M|M]; lra).
        assert (0 < (y - sy) * (ex - sx)) by lra. assert (0 < y - sy) by nra.
        f_equal; [destruct Dx|destruct Dy]; nra. }
      cbn [map factors]. rewrite <- C1. apply (fold_first _ _ _ c [] _ None maxsize maxsize_pos Ft Z). intros c' [].
    + destruct (in_split _ _ (center_tested _ _ _ _ _ _ _ _ Q)) as (l1 & l2 & Es). rewrite Es. apply fold_first; [exact maxsize_pos|exact Ft|exact Z|].
      intros c' I F' Z'. assert (I' : In c' (map (test_center s o) factors)) by (rewrite Es; apply in_or_app; now left).
      destruct (same_radius _ _ _ _ _ _ _ _ _ Q I' Z') as [B|[[B ->]|[B ->]]]; [exact B|destruct (Mx B F')|contradiction].
Qed.
(** An arc through or to the right end of its circle: the centre is refused. *)
Lemma ccw_right s e o c r f l : quarter_arc Counterclockwise s e o c r f l -> 0 <= f < 2 * PI -> 2 * PI <= f + l -> find_center SingleQuadrant Counterclockwise s e o <> Some c.
Proof.
  intros Q F0 F1 H. destruct (quarter_facts _ _ _ _ _ _ _ _ Q) as (Hr & Hl & S & E & Z). assert (Sm := q_small _ _ _ _ _ _ _ _ Q). pose proof pi_big.
  pose proof (fold_fits Counterclockwise s e (map (test_center s o) factors) None maxsize Logic.I) as F. unfold find_center in H. rewrite H in F. revert F. unfold fits, sweep.
  rewrite (sweep_lemma _ r f l (q_arc _ _ _ _ _ _ _ _ Q)) by lra. cbn [a_dir]. rewrite (theta0_eq (mkArc s e c Counterclockwise SingleQuadrant) r f Hr F0 S). destruct (Rlt_dec _ _); lra.
Qed.
(** An arc over the top between points of the same height: the centre is found on the other side. *)
Lemma ccw_top s e o c r f l : quarter_arc Counterclockwise s e o c r f l -> snd s = snd e -> fst e < fst s -> find_center SingleQuadrant Counterclockwise s e o = Some (mirror_y s c).
Proof.
  intros Q A H. destruct (quarter_facts _ _ _ _ _ _ _ _ Q) as (Hr & Hl & S & E & Z). assert (Sm := q_small _ _ _ _ _ _ _ _ Q). pose proof pi_big.
  pose proof (quarter_cross _ _ _ _ _ _ _ _ Q) as X. cbn beta iota in X.
  assert (Z' : radius_error s e (mirror_y s c) = 0).
  { unfold radius_error, sq_distance, mirror_y in *. cbn [fst snd]. apply abs_zero in Z. rewrite <- A in *. match goal with |- Rabs ?x = 0 => replace x with 0 by lra end. apply Rabs_R0. }
  assert (Ft : fits Counterclockwise s e (mirror_y s c)).
  { unfold fits, sweep. rewrite (sweep_lemma _ r _ _ (mirrored_y _ _ _ _ _ _ _ _ Q A)) by lra. cbn [a_dir]. 
    assert (T0 : exists k, - f = theta0 (mkArc s e (mirror_y s c) Counterclockwise SingleQuadrant) + 2 * IZR k * PI).
    { apply theta0_is with r; [exact Hr|]. apply (mirrored_y _ _ _ _ _ _ _ _ Q A). }
    destruct T0 as [k K]. set (t := theta0 _) in *. pose proof (theta0_range (mkArc s e (mirror_y s c) Counterclockwise SingleQuadrant)) as Rt. fold t in Rt.
    destruct (Rlt_dec _ _) as [L|L]; [|lra]. exfalso.
    (* sin f > 0, so t is above PI *)
    assert (Sf : 0 < sin f).
    { rewrite S, E in X, H, A. unfold at_angle in X, H, A. cbn [fst snd turning] in X, H, A. assert (sin (f + l) = sin f) as Y by nra. rewrite Y in X.
      assert (X' : 0 < r * r * (sin f * (cos f - cos (f + l)))) by lra. assert (0 < r * (cos f - cos (f + l))) by lra. assert (0 < cos f - cos (f + l)) by nra. assert (0 < r * r) by nra.
      assert (0 < sin f * (cos f - cos (f + l))) by nra. nra. }
    assert (St : sin t = - sin f).
    { replace t with (- f + 2 * IZR (- k) * PI) by (rewrite opp_IZR; lra). rewrite (proj2 (two_k (- f) (- k))). apply sin_neg. }
    assert (0 <= sin t) by (apply sin_ge_0; lra). lra. }
  assert (C3 : mirror_y s c = test_center s o (-1, 1) /\ fst c < fst s).
  { unfold radius_error, sq_distance in Z. apply abs_zero in Z. destruct Q as [_ _ [Ox Dx] [Oy Dy]].
    destruct c as [x y], s as [sx sy], e as [ex ey], o as [ox oy]. unfold mirror_y, test_center. cbn [fst snd] in *. subst ey.
    assert (x - sx = (ex - sx) / 2) by (assert (M : (ex - sx) * (ex + sx - 2 * x) = 0) by lra; apply Rmult_integral in M as [M|M]; lra).
    assert (0 < (y - sy) * (ex - sx)) by lra. assert (y - sy < 0) by nra. split; [|lra].
    f_equal; [destruct Dx|destruct Dy]; nra. }
  destruct C3 as [C3 Lt]. unfold find_center. cbn [map factors]. rewrite <- C3.
  apply (fold_first _ _ _ (mirror_y s c) [test_center s o (1, 1); test_center s o (1, -1)] _ None maxsize maxsize_pos Ft Z').
  intros c' I _ Zc. assert (I' : In c' (map (test_center s o) factors)) by (destruct I as [<-|[<-|[]]]; [left; reflexivity|right; left; reflexivity]).
  assert (R : fst s <= fst c'). { destruct Q as [_ _ [Ox _] _]. cbn in I. unfold test_center in I. destruct I as [<-|[<-|[]]]; cbn [fst snd]; lra. }
  destruct (same_radius _ _ _ _ _ _ _ _ _ Q I' Zc) as [B|[[B _]|[_ B]]]; [subst c'; lra|lra|exact B].
Qed.
Lemma ccw_top_wrong s e o c r f l : quarter_arc Counterclockwise s e o c r f l -> snd s = snd e -> fst e < fst s ->
  find_center SingleQuadrant Counterclockwise s e o = Some (fst c, 2 * snd s - snd c) /\ c <> (fst c, 2 * snd s - snd c).
Proof.
  intros Q A H. split; [exact (ccw_top s e o c r f l Q A H)|]. intros X. pose proof (quarter_cross _ _ _ _ _ _ _ _ Q) as Y. cbn beta iota in Y.
  assert (Z : snd c = snd s) by (rewrite (surjective_pairing c) in X at 1; injection X as X; lra). rewrite <- A, Z in Y. lra.
Qed.
Lemma center_unique d s e o c r f l c' r' f' l' : quarter_arc d s e o c r f l -> quarter_arc d s e o c' r' f' l' -> c' = c.
Proof.
  intros Q Q'. destruct (quarter_facts _ _ _ _ _ _ _ _ Q') as (_ & Hl' & _ & _ & Z'). destruct (quarter_facts _ _ _ _ _ _ _ _ Q) as (_ & Hl & _). pose proof pi_big. assert (Sm := q_small _ _ _ _ _ _ _ _ Q). assert (Sm' := q_small _ _ _ _ _ _ _ _ Q').
  destruct (same_radius _ _ _ _ _ _ _ _ _ Q (center_tested _ _ _ _ _ _ _ _ Q') Z') as [A|[[A B]|[A B]]]; [exact A| |]; exfalso; subst c'.
  - destruct (arc_unique _ _ _ _ _ _ _ (mirrored_x _ _ _ _ _ _ _ _ Q A) (q_arc _ _ _ _ _ _ _ _ Q')) as (_ & L & _). lra.
  - destruct (arc_unique _ _ _ _ _ _ _ (mirrored_y _ _ _ _ _ _ _ _ Q A) (q_arc _ _ _ _ _ _ _ _ Q')) as (_ & L & _). lra.
Qed.
