(** Proofs that moving and converting an object moves and scales its boxes. *)
From Coq Require Import Reals List Bool Lra Lia.
From Verif Require Import GeomModel GeomSpec GeomProofs CacheModel CacheSpec CacheProofs.
Import ListNotations.
Open Scope R_scope.
Open Scope list_scope.

Definition af (f d x : R) : R := f * x + d.
Definition afp (f : R) (d p : pt) : pt := (af f (fst d) (fst p), af f (snd d) (snd p)).
Definition afb (f : R) (d : pt) (b : rbox) : rbox :=
  ((af f (fst d) (fst (fst b)), af f (fst d) (snd (fst b))), (af f (snd d) (fst (snd b)), af f (snd d) (snd (snd b)))).

Section Affine.
Variable f : R.
Variable d : pt.
Hypothesis POS : 0 < f.
Lemma af_min e a b : Rmin (af f e a) (af f e b) = af f e (Rmin a b).
Proof.
  unfold af. destruct (Rle_dec a b).
  - rewrite (Rmin_left a b), Rmin_left; auto. apply Rplus_le_compat_r, Rmult_le_compat_l; lra.
  - rewrite (Rmin_right a b), Rmin_right; try lra. apply Rplus_le_compat_r, Rmult_le_compat_l; lra.
Qed.
Lemma af_max e a b : Rmax (af f e a) (af f e b) = af f e (Rmax a b).
Proof.
  unfold af. destruct (Rle_dec a b).
  - rewrite (Rmax_right a b), Rmax_right; auto. apply Rplus_le_compat_r, Rmult_le_compat_l; lra.
  - rewrite (Rmax_left a b), Rmax_left; try lra. apply Rplus_le_compat_r, Rmult_le_compat_l; lra.
Qed.
Lemma fold_min e l : forall x, fold_left Rmin (map (af f e) l) (af f e x) = af f e (fold_left Rmin l x).
Proof. induction l as [|y l IH]; intro x; [reflexivity|]. cbn. now rewrite af_min, IH. Qed.
Lemma fold_max e l : forall x, fold_left Rmax (map (af f e) l) (af f e x) = af f e (fold_left Rmax l x).
Proof. induction l as [|y l IH]; intro x; [reflexivity|]. cbn. now rewrite af_max, IH. Qed.
Lemma points_affine p l : points_box (afp f d p) (map (afp f d) l) = afb f d (points_box p l).
Proof.
  unfold points_box, BoxModel.points_box, afb. cbn [fst snd afp].
  replace (map fst (map (afp f d) l)) with (map (af f (fst d)) (map fst l)) by (rewrite !map_map; reflexivity).
  replace (map snd (map (afp f d) l)) with (map (af f (snd d)) (map snd l)) by (rewrite !map_map; reflexivity).
  now rewrite !fold_min, !fold_max.
Qed.
Lemma around_affine p a b : around Rplus Rminus (afp f d p) (f * a) (f * b) = afb f d (around Rplus Rminus p a b).
Proof. unfold around, afb, afp, af. cbn [fst snd]. f_equal; f_equal; ring. Qed.
Lemma grow_affine b x y : grow Rplus Rminus (afb f d b) (f * x) (f * y) = afb f d (grow Rplus Rminus b x y).
Proof. unfold grow, afb, af. cbn [fst snd]. f_equal; f_equal; ring. Qed.
Lemma line0_affine a b : line_box0 (afp f d a) (afp f d b) = afb f d (line_box0 a b).
Proof. unfold line_box0, BoxModel.line_box0, afb. cbn [fst snd afp]. now rewrite !af_min, !af_max. Qed.
Lemma atan2_scale y x : atan2 (f * y) (f * x) = atan2 y x.
Proof.
  assert (S : forall z, 0 < z -> 0 < f * z) by (intros; now apply Rmult_lt_0_compat).
  assert (N : forall z, z < 0 -> f * z < 0) by (intros z Hz; pose proof (S (- z) ltac:(lra)); lra).
  assert (Q : x <> 0 -> f * y / (f * x) = y / x) by (intro; field; split; lra).
  unfold atan2. destruct (Rlt_dec 0 x) as [X|X].
  - destruct (Rlt_dec 0 (f * x)) as [_|Y]; [|exfalso; apply Y; auto]. now rewrite Q by lra.
  - destruct (Rlt_dec 0 (f * x)) as [Y|_].
    + exfalso. destruct (Req_dec x 0) as [->|X0]; [lra|]. pose proof (N x ltac:(lra)). lra.
    + destruct (Rlt_dec x 0) as [X1|X1].
      * destruct (Rlt_dec (f * x) 0) as [_|Y]; [|exfalso; apply Y; auto]. rewrite Q by lra.
        destruct (Rle_dec 0 y) as [Y0|Y0], (Rle_dec 0 (f * y)) as [Y1|Y1]; try reflexivity; exfalso.
        -- apply Y1. apply Rmult_le_pos; lra.
        -- pose proof (N y ltac:(lra)). lra.
      * assert (X0 : x = 0) by lra. subst x. destruct (Rlt_dec (f * 0) 0) as [Y|_]; [lra|].
        destruct (Rlt_dec 0 y) as [Y0|Y0]; [destruct (Rlt_dec 0 (f * y)) as [_|Y]; [reflexivity|exfalso; apply Y; auto]|].
        destruct (Rlt_dec 0 (f * y)) as [Y|_].
        -- exfalso. destruct (Req_dec y 0) as [->|Z]; [lra|]. pose proof (N y ltac:(lra)). lra.
        -- destruct (Rlt_dec y 0) as [Y1|Y1]; [destruct (Rlt_dec (f * y) 0) as [_|Y]; [reflexivity|exfalso; apply Y; auto]|].
           assert (y = 0) by lra. subst y. destruct (Rlt_dec (f * 0) 0); [lra|reflexivity].
Qed.
Lemma sqrt_scale a b : sqrt ((f * a) * (f * a) + (f * b) * (f * b)) = f * sqrt (a * a + b * b).
Proof.
  replace (f * a * (f * a) + f * b * (f * b)) with ((f * f) * (a * a + b * b)) by ring.
  rewrite sqrt_mult; [|nra|nra]. now rewrite sqrt_square by lra.
Qed.
Definition afa (a : arc) : arc := mkArc (afp f d (a_start a)) (afp f d (a_end a)) (afp f d (a_center a)) (a_dir a) (a_quad a).
Lemma af_diff e a b : af f e a - af f e b = f * (a - b).
Proof. unfold af. ring. Qed.
Lemma radius_affine a : radius (afa a) = f * radius a.
Proof.
  unfold radius. cbn [afa a_start a_center afp fst snd]. rewrite !af_diff.
  match goal with |- sqrt (_ ^ 2 + _ ^ 2) = f * sqrt (?a ^ 2 + ?b ^ 2) => replace (a ^ 2 + b ^ 2) with (a * a + b * b) by ring; rewrite <- sqrt_scale end. f_equal. ring.
Qed.
Lemma radius_affine' a : f * radius a = radius (afa a).
Proof. now rewrite radius_affine. Qed.
Lemma theta0_affine a : theta0 (afa a) = theta0 a.
Proof. unfold theta0, start_angle. cbn [afa a_start a_center afp fst snd]. now rewrite !af_diff, atan2_scale. Qed.
Lemma theta1_affine a : theta1 (afa a) = theta1 a.
Proof. unfold theta1, end_angle. cbn [afa a_end a_center afp fst snd]. now rewrite !af_diff, atan2_scale. Qed.
Lemma map_if {A B} (g : A -> B) (b : bool) x : map g (if b then [x] else []) = if b then [g x] else [].
Proof. destruct b; reflexivity. Qed.
Lemma extremes_affine a : extremes (afa a) = map (afp f d) (extremes a).
Proof.
  unfold extremes. rewrite theta0_affine, theta1_affine, radius_affine. cbn [afa a_center a_quad a_dir]. unfold afp at 1. destruct (a_center a) as [x y]. cbn [fst snd].
  destruct (a_quad a); [reflexivity|].
  destruct (match a_dir a with Clockwise => (theta1 a, theta0 a) | Counterclockwise => (theta0 a, theta1 a) end) as [t0 t1].
  rewrite !map_app, !map_if. unfold afp, af. cbn [fst snd].
  replace (f * (x + radius a) + fst d) with (f * x + fst d + f * radius a) by ring.
  replace (f * (x - radius a) + fst d) with (f * x + fst d - f * radius a) by ring.
  replace (f * (y + radius a) + snd d) with (f * y + snd d + f * radius a) by ring.
  replace (f * (y - radius a) + snd d) with (f * y + snd d - f * radius a) by ring.
  reflexivity.
Qed.
Lemma arc0_affine a : arc_box0 (afa a) = afb f d (arc_box0 a).
Proof.
  unfold arc_box0. rewrite extremes_affine, <- points_affine. reflexivity.
Qed.
Lemma ellipse_w r w h : ellipse_width r (f * w) (f * h) = f * ellipse_width r w h.
Proof.
  unfold ellipse_width. replace (f * w / 2 * cos (radians r)) with (f * (w / 2 * cos (radians r))) by field.
  replace (f * h / 2 * cos (radians r + PI / 2)) with (f * (h / 2 * cos (radians r + PI / 2))) by field. rewrite sqrt_scale. ring.
Qed.
Lemma ellipse_h r w h : ellipse_height r (f * w) (f * h) = f * ellipse_height r w h.
Proof.
  unfold ellipse_height. replace (f * w / 2 * sin (radians r)) with (f * (w / 2 * sin (radians r))) by field.
  replace (f * h / 2 * sin (radians r + PI / 2)) with (f * (h / 2 * sin (radians r + PI / 2))) by field. rewrite sqrt_scale. ring.
Qed.

(** [s'] is [s] scaled by [f], then moved by [d]. *)
Record scaled (k : kind) (s s' : st) : Prop := {
  sc_points : forall a, In a (convert_points k) -> points s' a = afp f d (points s a);
  sc_numbers : forall a, In a (convert_numbers k) -> numbers s' a = f * numbers s a;
  sc_ap : k = Line \/ k = Arc -> ap s' = scale_ap f (ap s);
  sc_rest : dir s' = dir s /\ quad s' = quad s /\ rot s' = rot s /\ cos_t s' = cos_t s /\ sin_t s' = sin_t s }.
Lemma box_scaled k s s' : scaled k s s' -> box_of k s' = afb f d (box_of k s).
Proof.
  intros [P N A (D & Q & R & C & S)].
  assert (HF : forall x, f * x / 2 = f * (x / 2)) by (intro; field).
  destruct k; cbn [box_of]; unfold circle_box, slot_box, polygon_box, square_box, donut_box, line_box_rect, ellipse_box,
    BoxModel.circle_box, BoxModel.slot_box, BoxModel.polygon_box, BoxModel.square_box, BoxModel.donut_box, BoxModel.line_box_rect, BoxModel.rect_box, aa_width, aa_height;
    cbn [convert_points convert_numbers] in P, N; try fold line_box0;
    repeat match goal with |- context [points s' ?a] => rewrite (P a) by (cbn; tauto) end;
    repeat match goal with |- context [numbers s' ?a] => rewrite (N a) by (cbn; tauto) end; unfold half; rewrite ?HF, ?around_affine; auto.
  - rewrite (A (or_introl eq_refl)). destruct (ap s); cbn [scale_ap]; rewrite ?HF, line0_affine; apply grow_affine.
  - rewrite (A (or_intror eq_refl)). unfold the_arc. repeat match goal with |- context [points s' ?a] => rewrite (P a) by (cbn; tauto) end. rewrite D, Q.
    set (a := mkArc (points s Start) (points s End) (points s Center) (dir s) (quad s)). change (mkArc _ _ _ (dir s) (quad s)) with (afa a) at 1.
    destruct (ap s); cbn [scale_ap arc_box]; rewrite arc0_affine; apply grow_affine.
  - rewrite R, ellipse_w, ellipse_h, !HF. apply around_affine.
  - rewrite C, S. rewrite <- around_affine. f_equal; field.
  - change (BoxModel.line_box0 Rmin Rmax) with line_box0. rewrite line0_affine. apply grow_affine.
Qed.
Lemma box0_scaled k s s' : scaled k s s' -> good k s -> good k s' -> fst (read_no_aperture k s') = afb f d (fst (read_no_aperture k s)).
Proof.
  intros H G G'. assert (E : fst (read k s') = afb f d (fst (read k s))) by (rewrite (read_good k s G), (read_good k s' G'); now apply box_scaled).
  destruct H as [P N A (D & Q & R & C & S)]. destruct k; try exact E; cbn [read_no_aperture fst]; cbn [convert_points] in P.
  - rewrite !P by (cbn; tauto). apply line0_affine.
  - unfold the_arc. rewrite !P by (cbn; tauto). rewrite D, Q. exact (arc0_affine (mkArc (points s Start) (points s End) (points s Center) (dir s) (quad s))).
Qed.
End Affine.

Lemma pattr_eqb_iff a b : pattr_eqb a b = true <-> a = b.
Proof. destruct a, b; cbn; split; congruence. Qed.
Lemma nattr_eqb_iff a b : nattr_eqb a b = true <-> a = b.
Proof. destruct a, b; cbn; split; congruence. Qed.
Lemma af_one d x : af 1 d x = x + d. Proof. unfold af. ring. Qed.
Lemma offset_scaled k d s : scaled 1 d k s (offset k d s).
Proof.
  split.
  - intros a I. unfold afp. rewrite !af_one. destruct k; cbn [convert_points] in I;
      repeat match goal with H : In _ _ |- _ => destruct H as [<-|H] | H : In _ [] |- _ => destruct H end; reflexivity.
  - intros a I. rewrite Rmult_1_l. destruct k; reflexivity.
  - intros [-> | ->]; destruct s as [? ? p ? ? ? ? ? ? ?]; cbn; destruct p; cbn; f_equal; ring.
  - destruct k; repeat split.
Qed.
Section Convert.
Variable k : kind.
Variable f : R.
Definition conv_p (s : st) (a : pattr) : st := set_point k a (f * fst (points s a), f * snd (points s a)) s.
Definition conv_n (s : st) (a : nattr) : st := set_number k a (f * numbers s a) s.
Definition same_rest (s s' : st) : Prop :=
  ap s' = ap s /\ dir s' = dir s /\ quad s' = quad s /\ rot s' = rot s /\ units s' = units s /\ cos_t s' = cos_t s /\ sin_t s' = sin_t s.
Lemma rest_refl s : same_rest s s. Proof. repeat split. Qed.
Lemma rest_trans a b c : same_rest a b -> same_rest b c -> same_rest a c.
Proof. unfold same_rest. intuition congruence. Qed.
Lemma conv_p_facts s a : same_rest s (conv_p s a) /\ numbers (conv_p s a) = numbers s /\ points (conv_p s a) a = (f * fst (points s a), f * snd (points s a)) /\
  forall b, b <> a -> points (conv_p s a) b = points s b.
Proof.
  unfold conv_p, set_point. set (s0 := if point_setter k a then changed s else s).
  assert (E : same_rest s s0 /\ numbers s0 = numbers s /\ points s0 = points s) by (unfold s0; destruct (point_setter k a); split; auto; repeat split).
  destruct E as (E1 & E2 & E3). split; [exact E1|]. split; [exact E2|]. cbn [put_point points]. split.
  - destruct (pattr_eqb a a) eqn:X; [reflexivity|]. assert (pattr_eqb a a = true) by now apply pattr_eqb_iff. congruence.
  - intros b N. destruct (pattr_eqb a b) eqn:X; [apply pattr_eqb_iff in X; congruence|]. now rewrite E3.
Qed.
Lemma conv_n_facts s a : same_rest s (conv_n s a) /\ points (conv_n s a) = points s /\ numbers (conv_n s a) a = f * numbers s a /\
  forall b, b <> a -> numbers (conv_n s a) b = numbers s b.
Proof.
  unfold conv_n, set_number. set (s0 := if number_setter k a then changed s else s).
  assert (E : same_rest s s0 /\ numbers s0 = numbers s /\ points s0 = points s) by (unfold s0; destruct (number_setter k a); split; auto; repeat split).
  destruct E as (E1 & E2 & E3). split; [exact E1|]. split; [exact E3|]. cbn [put_number numbers]. split.
  - destruct (nattr_eqb a a) eqn:X; [reflexivity|]. assert (nattr_eqb a a = true) by now apply nattr_eqb_iff. congruence.
  - intros b N. destruct (nattr_eqb a b) eqn:X; [apply nattr_eqb_iff in X; congruence|]. now rewrite E2.
Qed.
Lemma conv_ps l : NoDup l -> forall s, let s' := fold_left conv_p l s in
  same_rest s s' /\ numbers s' = numbers s /\ (forall a, In a l -> points s' a = (f * fst (points s a), f * snd (points s a))) /\ (forall a, ~ In a l -> points s' a = points s a).
Proof.
  induction 1 as [|a l N D IH]; intros s; cbv zeta; cbn [fold_left]; [repeat split; contradiction|].
  destruct (conv_p_facts s a) as (A1 & A2 & A3 & A4). destruct (IH (conv_p s a)) as (B1 & B2 & B3 & B4).
  split; [eapply rest_trans; eassumption|]. split; [congruence|]. split.
  - intros b [<-|I]; [rewrite B4 by exact N; exact A3|]. rewrite B3 by exact I. rewrite A4 by congruence. reflexivity.
  - intros b I. rewrite B4 by (intro; apply I; now right). apply A4. intro; apply I; now left.
Qed.
Lemma conv_ns l : NoDup l -> forall s, let s' := fold_left conv_n l s in
  same_rest s s' /\ points s' = points s /\ (forall a, In a l -> numbers s' a = f * numbers s a) /\ (forall a, ~ In a l -> numbers s' a = numbers s a).
Proof.
  induction 1 as [|a l N D IH]; intros s; cbv zeta; cbn [fold_left]; [repeat split; contradiction|].
  destruct (conv_n_facts s a) as (A1 & A2 & A3 & A4). destruct (IH (conv_n s a)) as (B1 & B2 & B3 & B4).
  split; [eapply rest_trans; eassumption|]. split; [congruence|]. split.
  - intros b [<-|I]; [rewrite B4 by exact N; exact A3|]. rewrite B3 by exact I. rewrite A4 by congruence. reflexivity.
  - intros b I. rewrite B4 by (intro; apply I; now right). apply A4. intro; apply I; now left.
Qed.
End Convert.
Lemma unit_eqb_refl u : unit_eqb u u = true. Proof. destruct u; reflexivity. Qed.
Lemma convert_scaled k u s : units s = Some (other_unit u) -> scaled (unit_factor u) (0, 0) k s (convert k u s) /\ units (convert k u s) = Some u.
Proof.
  intro U. unfold convert. rewrite U, unit_eqb_refl. cbv zeta. set (f := unit_factor u).
  change (fun s a => set_point k a (f * fst (points s a), f * snd (points s a)) s) with (conv_p k f). change (fun s a => set_number k a (f * numbers s a) s) with (conv_n k f).
  assert (NP : NoDup (convert_points k)) by (destruct k; cbn; repeat (constructor; [cbn; intuition discriminate|]); constructor).
  assert (NN : NoDup (convert_numbers k)) by (destruct k; cbn; repeat (constructor; [cbn; intuition discriminate|]); constructor).
  set (s1 := set_units (Some u) s). destruct (conv_ps k f _ NP s1) as (A1 & A2 & A3 & _). set (s2 := fold_left (conv_p k f) (convert_points k) s1) in *.
  destruct (conv_ns k f _ NN s2) as (B1 & B2 & B3 & _). set (s3 := fold_left (conv_n k f) (convert_numbers k) s2) in *.
  destruct A1 as (A11 & A12 & A13 & A14 & A15 & A16 & A17). destruct B1 as (B11 & B12 & B13 & B14 & B15 & B16 & B17).
  set (s4 := match k with Line | Arc => set_aperture (scale_ap f (ap s3)) s3 | _ => s3 end).
  assert (E : points s4 = points s3 /\ numbers s4 = numbers s3 /\ (k = Line \/ k = Arc -> ap s4 = scale_ap f (ap s3)) /\ dir s4 = dir s3 /\ quad s4 = quad s3 /\ rot s4 = rot s3 /\ cos_t s4 = cos_t s3 /\ sin_t s4 = sin_t s3 /\ units s4 = units s3).
  { unfold s4. destruct k; cbn; repeat split; auto; intros [E|E]; discriminate. }
  destruct E as (E1 & E2 & E3 & E4 & E5 & E6 & E7 & E8 & E9). split.
  - split.
    + intros a I. rewrite E1, B2, A3 by exact I. unfold afp, af. cbn [fst snd]. change (points s1 a) with (points s a). f_equal; ring.
    + intros a I. rewrite E2, B3 by exact I. now rewrite A2.
    + intro K. rewrite E3 by exact K. now rewrite B11, A11.
    + rewrite E4, E5, E6, E7, E8, B12, B13, B14, B16, B17, A12, A13, A14, A16, A17. repeat split.
  - rewrite E9, B15, A15. reflexivity.
Qed.

Lemma afb_shift d b : afb 1 d b = shifted d b.
Proof. unfold afb, shifted. now rewrite !af_one. Qed.
Lemma afb_magnify f b : afb f (0, 0) b = magnified f b.
Proof. unfold afb, magnified, af. cbn [fst snd]. f_equal; f_equal; ring. Qed.
Lemma unit_factor_per u : unit_factor u = per_unit u.
Proof. destruct u; cbn; [field|reflexivity]. Qed.
Lemma run_good k l s : is_new s -> Forall (fun o => exceptional k o = false) l -> good k (run k l s).
Proof.
  intros N F. assert (G : good k s) by now apply new_good. clear N. revert s G. induction F as [|o l X F IH]; intros s G; [exact G|]. apply IH. now apply step_good.
Qed.
Lemma moved_lemma k l s d : is_new s -> Forall (fun o => exceptional k o = false) l -> k <> Slot ->
  let s' := run k l s in
  fst (read k (step k (Offset d) s')) = shifted d (fst (read k s')) /\
  fst (read_no_aperture k (step k (Offset d) s')) = shifted d (fst (read_no_aperture k s')).
Proof.
  intros N F K. cbv zeta. pose proof (run_good k l s N F) as G. set (s' := run k l s) in *. cbn [step].
  assert (X : exceptional k (Offset d) = false) by (destruct k; try reflexivity; congruence).
  pose proof (offset_good k d s' X G) as G'. pose proof (offset_scaled k d s') as SC. rewrite <- !afb_shift. split.
  - rewrite (read_good _ _ G), (read_good _ _ G'). apply box_scaled; [lra|exact SC].
  - apply box0_scaled; auto. lra.
Qed.
Lemma factor_pos u : 0 < unit_factor u. Proof. destruct u; cbn; lra. Qed.
Lemma converted_lemma k l s u : is_new s -> Forall (fun o => exceptional k o = false) l ->
  let s' := run k l s in units s' = Some (other_unit u) ->
  units (step k (Convert u) s') = Some u /\
  fst (read k (step k (Convert u) s')) = magnified (per_unit u) (fst (read k s')) /\
  fst (read_no_aperture k (step k (Convert u) s')) = magnified (per_unit u) (fst (read_no_aperture k s')).
Proof.
  intros N F. cbv zeta. intro U. pose proof (run_good k l s N F) as G. set (s' := run k l s) in *. cbn [step].
  pose proof (convert_good k u s' G) as G'. destruct (convert_scaled k u s' U) as [SC U']. pose proof (factor_pos u) as P.
  split; [exact U'|]. rewrite <- unit_factor_per, <- !afb_magnify. split.
  - rewrite (read_good _ _ G), (read_good _ _ G'). now apply box_scaled.
  - now apply box0_scaled.
Qed.
Lemma unconverted_lemma k s u : units s <> Some (other_unit u) -> step k (Convert u) s = s.
Proof.
  intro U. cbn [step]. unfold convert. destruct (units s) as [w|]; [|reflexivity]. destruct (unit_eqb w (other_unit u)) eqn:E; [|reflexivity].
  exfalso. apply U. destruct w, u; cbn in *; congruence.
Qed.
Lemma slot_stays : exists s d, is_new s /\ fst (read Slot (step Slot (Offset d) (run Slot [Read] s))) <> shifted d (fst (read Slot (run Slot [Read] s))).
Proof.
  exists (create (fun _ => (0, 0)) (fun _ => 1) (Round 0) Clockwise SingleQuadrant 0 None), (1, 0). split; [reflexivity|].
  cbn. intro E. apply (f_equal (fun b : rbox => fst (fst b))) in E. cbn in E. lra.
Qed.
