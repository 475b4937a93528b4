(** Macros, full circles and the scale of images. *)
From Coq Require Import Lra Lia Psatz Bool Classical.
From Verif Require Import PyBase GeomProofs CairoSpec CairoProofs CairoLayer CairoMore.
Import ListNotations.
Open Scope R_scope.
Open Scope list_scope.

Section Macros.
Variable fill : list curve -> shape.
Notation C inv := (set_bounds 1 ten inv false).
(** A block, and a macro on it *)
Lemma three_blocks d1 d2 d3 g : exists img,
  render_layer fill (C false) [Single (block d1 0); Group g [block d2 0; block d3 0]] = Ok img /\
  (img (pixel 1 ten false middle) <-> puts middle [(d1, fun _ => True); (d2, fun _ => True); (d3, fun _ => True)] False).
Proof.
  unfold render_layer. cbn [flat_map parts app render_all].
  assert (H : forall d layer, exists img, render fill (C false) (block d 0) layer = Ok img /\ (img (pixel 1 ten false middle) <-> put middle (layer (pixel 1 ten false middle)) (d, fun _ => True))).
  { intros d layer. destruct (block_mask fill false d 0) as (l & M & D); [lra|].
    destruct (render_step fill false (block d 0) layer l middle M middle_in) as (img & -> & E); [unfold inside, middle; cbn; lra|cbn; lra|]. exists img. split; [reflexivity|]. rewrite E.
    assert (D' : drawing l (magnify 1 middle)) by (apply D; intros; lra). unfold put. cbn [fst snd negb andb dark block]. destruct d; tauto. }
  destruct (H d1 (fun q => invert (C false) = true /\ on_surface (C false) q)) as (i1 & -> & E1). cbn [bind]. destruct (H d2 i1) as (i2 & -> & E2). cbn [bind]. destruct (H d3 i2) as (i3 & -> & E3). cbn [bind].
  exists i3. split; [reflexivity|]. rewrite E3. unfold puts. cbn [fold_left]. unfold put at 1 2. cbn [fst snd]. destruct d3; rewrite E2; unfold put; cbn [fst snd]; destruct d2; rewrite E1; unfold put; cbn [fst snd invert set_bounds]; destruct d1; intuition discriminate.
Qed.
Lemma middle_block d : prim_shape fill (what (block d 0)) middle.
Proof. apply block_shape_middle; [lra|reflexivity]. Qed.
Lemma put_block d B : put middle B (drawn_shape fill (block d 0)) <-> put middle B (d, fun _ => True).
Proof. pose proof (middle_block d) as M. unfold drawn_shape, put. cbn [fst snd]. change (dark (block d 0)) with d. destruct d; tauto. Qed.
Lemma put_iff x B B' : (B <-> B') -> (put middle B x <-> put middle B' x).
Proof. unfold put. destruct (fst x); tauto. Qed.
Lemma shows_three d1 d2 d3 g : layer_shows fill [Single (block d1 0); Group g [block d2 0; block d3 0]] middle <->
  put middle (put middle False (d1, fun _ => True)) (g, fun _ => puts middle [(d2, fun _ => True); (d3, fun _ => True)] False).
Proof.
  assert (G : darkened [drawn_shape fill (block d2 0); drawn_shape fill (block d3 0)] middle <-> puts middle [(d2, fun _ => True); (d3, fun _ => True)] False).
  { rewrite <- puts_darkened. unfold puts. cbn [fold_left]. rewrite put_block. apply put_iff, put_block. }
  unfold layer_shows. rewrite <- puts_darkened. unfold puts at 1. cbn [map fold_left item_shape]. rewrite (put_iff _ _ _ (put_block d1 False)).
  set (B := put middle False (d1, fun _ => True)). unfold put. cbn [fst snd]. destruct g; rewrite G; reflexivity.
Qed.
Lemma clear_macro : exists img, render_layer fill (C false) [Single (block true 0); Group false [block true 0; block true 0]] = Ok img /\
  ~ layer_shows fill [Single (block true 0); Group false [block true 0; block true 0]] middle /\ img (pixel 1 ten false middle).
Proof.
  destruct (three_blocks true true true false) as (img & R & E). exists img. split; [exact R|]. rewrite shows_three, E. unfold puts, put. cbn. tauto.
Qed.
Lemma exposure_off : exists img, render_layer fill (C false) [Single (block true 0); Group true [block true 0; block false 0]] = Ok img /\
  layer_shows fill [Single (block true 0); Group true [block true 0; block false 0]] middle /\ ~ img (pixel 1 ten false middle).
Proof.
  destruct (three_blocks true true false true) as (img & R & E). exists img. split; [exact R|]. rewrite shows_three, E. unfold puts, put. cbn. tauto.
Qed.
End Macros.

(** ** Full circles *)
Lemma full_angles a r f : arc_is a r f (2 * PI) -> a_end a = a_start a /\ theta1 a = theta0 a /\ end_angle a = start_angle a.
Proof.
  intros (R0 & L & Hs & He). assert (E : a_end a = a_start a).
  { rewrite Hs, He. destruct (a_dir a); cbn [turning]; [replace (f - 2 * PI) with (f + 2 * IZR (-1) * PI) by ring|replace (f + 2 * PI) with (f + 2 * IZR 1 * PI) by ring]; now rewrite at_angle_k. }
  split; [exact E|]. unfold theta0, theta1, end_angle, start_angle. rewrite E. auto.
Qed.
Lemma sin_le x : 0 <= x -> sin x <= x.
Proof. intro H. destruct (Rle_lt_or_eq_dec 0 x H) as [P|<-]; [pose proof (sin_lt_x x P); lra|rewrite sin_0; lra]. Qed.
Lemma sin_abs x : 0 <= x <= 1 -> Rabs (sin x) <= x.
Proof. intro H. rewrite Rabs_right; [now apply sin_le|]. apply Rle_ge. apply sin_ge_0; [lra|]. pose proof PI2_1. lra. Qed.
Lemma near_angle c r t u : 0 < r -> 0 <= u <= 1 ->
  Rabs (fst (at_angle c r (t - u)) - fst (at_angle c r t)) <= r * u /\ Rabs (snd (at_angle c r (t - u)) - snd (at_angle c r t)) <= r * u.
Proof.
  intros R0 U. unfold at_angle. cbn [fst snd].
  replace (fst c + r * cos (t - u) - (fst c + r * cos t)) with (r * (cos (t - u) - cos t)) by ring. replace (snd c + r * sin (t - u) - (snd c + r * sin t)) with (r * (sin (t - u) - sin t)) by ring.
  rewrite !Rabs_mult, (Rabs_right r) by lra. assert (S : Rabs (sin (u / 2)) <= u / 2) by (apply sin_abs; lra). split; (apply Rmult_le_compat_l; [lra|]).
  - rewrite form2. replace ((t - u - t) / 2) with (- (u / 2)) by field. rewrite sin_neg. replace (-2 * - sin (u / 2) * sin ((t - u + t) / 2)) with (2 * sin (u / 2) * sin ((t - u + t) / 2)) by ring. rewrite !Rabs_mult, (Rabs_right 2) by lra.
    pose proof (Rabs_pos (sin (u / 2))). assert (Rabs (sin ((t - u + t) / 2)) <= 1) by (apply Rabs_le; apply SIN_bound). nra.
  - rewrite form4. replace ((t - u - t) / 2) with (- (u / 2)) by field. rewrite sin_neg. rewrite !Rabs_mult, Rabs_Ropp, (Rabs_right 2) by lra.
    pose proof (Rabs_pos (sin (u / 2))). assert (Rabs (cos ((t - u + t) / 2)) <= 1) by (apply Rabs_le; apply COS_bound). nra.
Qed.
Definition tiny : R := 1 / 1000000000.
Definition arc_cmds (a : arc) (r : R) : list cmd :=
  let e := theta0 a - tiny in
  [match a_dir a with Counterclockwise => ArcTo (a_center a) r (theta0 a) e | Clockwise => ArcNegative (a_center a) r (theta0 a) e end].
Lemma full_path c a r f d p : 0 < scale c -> arc_is a r f (2 * PI) -> a_quad a = MultiQuadrant ->
  c_stroke (d * scale c) (arc_path c a) (magnify (scale c) p) <-> c_stroke d (fst (path (a_start a) (arc_cmds a r))) p.
Proof.
  intros S A Q. destruct (full_angles a r f A) as (_ & T & _). pose proof A as (R0 & L & Hs & He).
  assert (E : arc_path c a = fst (path (magnify (scale c) (a_start a)) (map (magnify_cmd (scale c)) (arc_cmds a r)))).
  { unfold arc_path, arc_cmds. rewrite Q, T. destruct (Req_EM_T _ _); [|easy]. rewrite !scale_magnify, (radius_is a r f) by (auto; lra). destruct (a_dir a); reflexivity. }
  rewrite E. rewrite <- (stroke_magnify (scale c) d (fst (path (a_start a) (arc_cmds a r))) p) by exact S. destruct (path_magnify (scale c) (arc_cmds a r) (a_start a)) as [X _].
  split; apply c_stroke_same; [exact X|now apply same_sym].
Qed.
Lemma disc_coord d v : 0 <= d -> disc (0, 0) d v -> Rabs (fst v) <= d /\ Rabs (snd v) <= d.
Proof.
  intros D H. unfold disc, dist2 in H. cbn [fst snd] in H. assert (fst v ^ 2 <= d ^ 2) by nra. assert (snd v ^ 2 <= d ^ 2) by nra.
  split; apply Rabs_le; apply sq_le_abs; assumption.
Qed.
Lemma clockwise_circle c a r f d p : 0 < scale c -> arc_is a r f (2 * PI) -> a_quad a = MultiQuadrant -> a_dir a = Clockwise ->
  c_stroke (d * scale c) (arc_path c a) (magnify (scale c) p) ->
  Rabs (fst p - fst (a_start a)) <= d / 2 + r * tiny /\ Rabs (snd p - snd (a_start a)) <= d / 2 + r * tiny.
Proof.
  intros S A Q D H. rewrite (full_path c a r f) in H by assumption. pose proof A as (R0 & L & Hs & He). destruct H as (W & q & v & (g & t & I & T & E) & V & P).
  assert (X : Rabs (fst q - fst (a_start a)) <= r * tiny /\ Rabs (snd q - snd (a_start a)) <= r * tiny).
  { pose proof (start_theta0 a r f R0 Hs) as ST. unfold arc_cmds in I. rewrite D in I. cbn [path fst] in I. destruct I as [<-|[<-|[]]].
    - rewrite ST in E. subst q. unfold straight. cbn. assert (Z : 0 <= r * tiny) by (unfold tiny; nra). replace (_ - _) with 0 by ring. replace (snd (a_start a) + t * (snd (a_start a) - snd (a_start a)) - snd (a_start a)) with 0 by ring. rewrite Rabs_R0. auto.
    - subst q. unfold curved, arc_negative_turn. destruct (Rle_dec _ _) as [_|N]; [|unfold tiny in N; lra]. rewrite <- ST. replace (theta0 a + t * - (theta0 a - (theta0 a - tiny))) with (theta0 a - t * tiny) by ring.
      assert (U : 0 <= t * tiny <= 1) by (unfold tiny; lra). destruct (near_angle (a_center a) r (theta0 a) _ R0 U) as [N1 N2]. assert (r * (t * tiny) <= r * tiny) by (apply Rmult_le_compat_l; unfold tiny; lra). lra. }
  apply disc_coord in V; [|lra]. subst p. cbn [fst snd]. destruct X as [X1 X2], V as [V1 V2]. split.
  - replace (fst q + fst v - fst (a_start a)) with ((fst q - fst (a_start a)) + fst v) by ring. eapply Rle_trans; [apply Rabs_triang|]. lra.
  - replace (snd q + snd v - snd (a_start a)) with ((snd q - snd (a_start a)) + snd v) by ring. eapply Rle_trans; [apply Rabs_triang|]. lra.
Qed.
Lemma tiny_turn t : arc_turn t (t - tiny) = 2 * PI - tiny.
Proof.
  unfold arc_turn. pose proof PI2_1. destruct (Rle_dec _ _) as [N|_]; [unfold tiny in N; lra|]. apply rmod_eq with (-1)%Z; unfold tiny; lra.
Qed.
(** Every point of the circle, with the pen's width to spare *)
Lemma counterclockwise_circle c a r f d p : 0 < scale c -> arc_is a r f (2 * PI) -> a_quad a = MultiQuadrant -> a_dir a = Counterclockwise -> 0 < d ->
  (c_stroke (d * scale c) (arc_path c a) (magnify (scale c) p) -> stroke (on_arc a) (disc (0, 0) (d / 2)) p) /\
  (2 * (r * tiny) <= d / 2 -> on_arc a p -> c_stroke (d * scale c) (arc_path c a) (magnify (scale c) p)).
Proof.
  intros S A Q D W. rewrite (full_path c a r f) by assumption. pose proof A as (R0 & L & Hs & He). pose proof (start_theta0 a r f R0 Hs) as ST. pose proof PI2_1 as P1. destruct (theta0_is a r f R0 Hs) as [k K].
  unfold arc_cmds. rewrite D. cbn [path fst]. rewrite tiny_turn. split.
  - intros (_ & q & v & (g & t & I & T & E) & V & P). exists q, v. split; [|auto]. destruct I as [<-|[<-|[]]].
    + rewrite ST in E. exists r, f, (2 * PI), 0. split; [exact A|]. split; [lra|]. rewrite D. cbn [turning]. rewrite Rplus_0_r, <- Hs, E. unfold straight. destruct (a_start a). cbn. f_equal; ring.
    + exists r, f, (2 * PI), (t * (2 * PI - tiny)). split; [exact A|]. split; [unfold tiny; nra|]. rewrite D, E. cbn [turning]. unfold curved. rewrite K, <- (at_angle_k _ _ _ k). f_equal. ring.
  - intros Fi (r' & f' & l' & t & A' & T & P). destruct (arc_unique a r f (2 * PI) r' f' l' A A') as (<- & <- & m & M). rewrite D in P. cbn [turning] in P.
    assert (P' : p = at_angle (a_center a) r (theta0 a + t)). { rewrite P. assert (EQ : f' = theta0 a + 2 * IZR (k - m) * PI) by (rewrite minus_IZR; lra). rewrite EQ. rewrite <- (at_angle_k _ _ (theta0 a + t) (k - m)). f_equal. ring. }
    split; [exact W|]. destruct (Rle_dec t (2 * PI - tiny)) as [In1|Out].
    + exists p, (0, 0). split; [|split; [unfold disc, dist2; cbn [fst snd]; nra|destruct p; cbn; f_equal; ring]]. exists (curved (a_center a) r (theta0 a) (2 * PI - tiny)), (t / (2 * PI - tiny)). split; [right; now left|].
      assert (Z : 0 < 2 * PI - tiny) by (unfold tiny; lra). split; [split; [apply Rmult_le_reg_r with (2 * PI - tiny)|apply Rmult_le_reg_r with (2 * PI - tiny)]; try lra; unfold Rdiv; rewrite ?Rmult_assoc, ?Rinv_l by lra; lra|].
      rewrite P'. unfold curved. f_equal. field. lra.
    + exists (a_start a), (fst p - fst (a_start a), snd p - snd (a_start a)). split; [exists (straight (a_start a) (at_angle (a_center a) r (theta0 a))), 0; split; [now left|split; [lra|unfold straight; destruct (a_start a); cbn; f_equal; ring]]|].
      split; [|destruct p; cbn; f_equal; ring].
      assert (P2 : p = at_angle (a_center a) r (theta0 a - (2 * PI - t))). { rewrite P'. rewrite <- (at_angle_k _ _ (theta0 a - _) 1). f_equal. ring. }
      assert (U : 0 <= 2 * PI - t <= 1) by (unfold tiny in Out; lra). destruct (near_angle (a_center a) r (theta0 a) _ R0 U) as [N1 N2]. rewrite <- P2, ST in N1, N2.
      assert (B : r * (2 * PI - t) <= r * tiny) by (apply Rmult_le_compat_l; lra). unfold disc, dist2. cbn [fst snd].
      set (x := fst p - fst (a_start a)) in *. set (y := snd p - snd (a_start a)) in *. replace (x - 0) with x by ring. replace (y - 0) with y by ring. rewrite <- (pow2_abs x), <- (pow2_abs y).
      pose proof (Rabs_pos x). pose proof (Rabs_pos y). set (u := r * tiny) in *. assert (Rabs x <= u) by lra. assert (Rabs y <= u) by lra. nra.
Qed.
(** A full circle as the contour of a region is not drawn. *)
Lemma region_circle fill c dark a r f : filling fill -> arc_is a r f (2 * PI) -> 0 < scale c ->
  exists s, mask fill c dark (PRegion [SArc a]) = Ok [(Over, s)] /\ forall p, s (magnify (scale c) p) <-> fill [] p.
Proof.
  intros Fi A S. destruct (full_angles a r f A) as (E & _ & T). pose proof A as (R0 & L & Hs & He). eexists. split; [reflexivity|]. intro p. cbn [seg_start].
  rewrite scale_magnify. rewrite (map_ext _ _ (seg_cmd_magnify c)). rewrite <- (map_map cmd_of (magnify_cmd (scale c))). rewrite closed_fill by assumption.
  unfold closed. cbn [map cmd_of]. rewrite T, (radius_is a r f) by (auto; lra).
  assert (St : at_angle (a_center a) r (start_angle a) = a_start a). { destruct (angle_of _ _ _ _ R0 Hs) as [k K]. fold (start_angle a) in K. rewrite Hs, K. now rewrite at_angle_k. }
  assert (Z1 : arc_turn (start_angle a) (start_angle a) = 0) by (unfold arc_turn; destruct (Rle_dec _ _); lra).
  assert (Z2 : arc_negative_turn (start_angle a) (start_angle a) = 0) by (unfold arc_negative_turn; destruct (Rle_dec _ _); lra).
  assert (Still : forall l p, (forall g, In g l -> forall t, g t = g 0) -> fill l p <-> fill [] p).
  { intros l q. induction l as [|g l IH]; intro G; [reflexivity|]. pose proof (still_curves fill Fi [] g l q (G g (or_introl eq_refl))) as X. cbn [app] in X. rewrite X. apply IH. intros h Ih. apply G. now right. }
  destruct (a_dir a); cbn [path]; [rewrite Z2, Rminus_0_r|rewrite Z1, Rplus_0_r]; rewrite St; apply Still; cbn [app fst snd]; intros g [<-|[<-|[<-|[]]]] t; unfold straight, curved; f_equal; ring.
Qed.

(** ** The scale *)
Definition within (a b : R * R) : Prop := fst b <= fst a /\ snd a <= snd b.
Definition step_range (r : rbox) (b : option rbox) : rbox := match b with Some b => (widen (fst r) (fst b), widen (snd r) (snd b)) | None => r end.
Lemma widen_grows r b : within r (widen r b) /\ within b (widen r b).
Proof. unfold within, widen. cbn. pose proof (Rmin_l (fst r) (fst b)). pose proof (Rmin_r (fst r) (fst b)). pose proof (Rmax_l (snd r) (snd b)). pose proof (Rmax_r (snd r) (snd b)). lra. Qed.
Lemma within_trans a b c : within a b -> within b c -> within a c. Proof. unfold within. lra. Qed.
Lemma within_refl a : within a a. Proof. unfold within. lra. Qed.
Lemma range_grows l : forall r, within (fst r) (fst (fold_left step_range l r)) /\ within (snd r) (snd (fold_left step_range l r)).
Proof.
  induction l as [|x l IH]; intro r; [split; apply within_refl|]. cbn [fold_left]. destruct (IH (step_range r x)) as [A B]. destruct x as [x|]; cbn in *; [|auto].
  split; eapply within_trans; try eassumption; apply widen_grows.
Qed.
Lemma range_has l b : forall r, In (Some b) l -> within (fst b) (fst (fold_left step_range l r)) /\ within (snd b) (snd (fold_left step_range l r)).
Proof.
  induction l as [|x l IH]; intros r I; [easy|]. cbn [fold_left]. destruct I as [->|I]; [|now apply IH]. destruct (range_grows l (step_range r (Some b))) as [A B]. cbn in *.
  split; eapply within_trans; try eassumption; apply widen_grows.
Qed.
Lemma widen_within r b m : within r m -> within b m -> within (widen r b) m.
Proof. unfold within, widen. cbn. intros [A B] [C D]. split; [apply Rmin_glb|apply Rmax_lub]; assumption. Qed.
Lemma range_within l m : forall r, within (fst r) (fst m) -> within (snd r) (snd m) -> (forall b, In (Some b) l -> within (fst b) (fst m) /\ within (snd b) (snd m)) ->
  within (fst (fold_left step_range l r)) (fst m) /\ within (snd (fold_left step_range l r)) (snd m).
Proof.
  induction l as [|x l IH]; intros r A B H; [auto|]. cbn [fold_left]. apply IH.
  - destruct x as [x|]; cbn; [|exact A]. apply widen_within; [exact A|]. apply H. now left.
  - destruct x as [x|]; cbn; [|exact B]. apply widen_within; [exact B|]. apply H. now left.
  - intros b I. apply H. now right.
Qed.
Lemma ranges_eq l : ranges l = fold_left step_range l ((10000, -10000), (10000, -10000)). Proof. reflexivity. Qed.
Lemma floor_nonneg x : 0 <= x -> 0 <= floor x.
Proof. intro H. pose proof (floor_mono 0 x H) as M. now rewrite (floor_int 0) in M. Qed.
Lemma div_le a b c : 0 < b -> c <= a / b -> c * b <= a.
Proof. intros B H. apply Rmult_le_compat_r with (r := b) in H; [|lra]. unfold Rdiv in H. rewrite Rmult_assoc, Rinv_l in H; lra. Qed.
Lemma le_div a b c : 0 < b -> c * b <= a -> c <= a / b.
Proof. intros B H. apply Rmult_le_reg_r with b; [exact B|]. unfold Rdiv. rewrite Rmult_assoc, Rinv_l; lra. Qed.
Lemma div_nonneg a b : 0 <= a -> 0 < b -> 0 <= a / b.
Proof. intros A B. apply le_div; lra. Qed.
Lemma layers_fit b l mw mh inv mir c : layers_context (Some b :: l) mw mh inv mir = Ok c -> 0 <= mw -> 0 <= mh -> fst (fst b) <= snd (fst b) -> fst (snd b) <= snd (snd b) ->
  c = set_bounds (scale c) b inv mir /\ 0 <= scale c /\ fst (size_px c) <= mw /\ snd (size_px c) <= mh.
Proof.
  unfold layers_context, layers_scale. rewrite ranges_eq. destruct (range_has (Some b :: l) b ((10000, -10000), (10000, -10000)) (or_introl eq_refl)) as [A B].
  set (r := fold_left step_range _ _) in *. intros H MW MH X Y. destruct (Req_EM_T _ 0) as [|N1]; [discriminate|]. destruct (Req_EM_T _ 0) as [|N2]; [discriminate|]. cbn [bind] in H. injection H as <-.
  unfold within in *. assert (W : 0 < snd (fst r) - fst (fst r)) by lra. assert (Hh : 0 < snd (snd r) - fst (snd r)) by lra.
  set (m := Rmin _ _). assert (M0 : 0 <= m) by (apply Rmin_glb; now apply div_nonneg). pose proof (floor_nonneg m M0) as F0. pose proof (floor_bounds m) as Fb.
  assert (M1 : m * (snd (fst r) - fst (fst r)) <= mw) by (apply div_le; [exact W|apply Rmin_l]). assert (M2 : m * (snd (snd r) - fst (snd r)) <= mh) by (apply div_le; [exact Hh|apply Rmin_r]).
  split; [reflexivity|]. cbn [scale set_bounds]. split; [exact F0|]. unfold size_px, scale_point. cbn [fst snd size scale set_bounds]. rewrite !Rabs_right by lra. split; nra.
Qed.
(** No larger whole number of pixels per unit fits. *)
Lemma layers_largest l mw mh inv mir c m k : layers_context l mw mh inv mir = Ok c -> 0 < mw -> 0 < mh ->
  (forall b, In (Some b) l -> within (fst b) (fst m) /\ within (snd b) (snd m) /\ fst (fst b) <= snd (fst b) /\ fst (snd b) <= snd (snd b)) ->
  -10000 <= fst (fst m) -> snd (fst m) <= 10000 -> -10000 <= fst (snd m) -> snd (snd m) <= 10000 -> (exists b, In (Some b) l) ->
  (0 <= k)%Z -> IZR k * (snd (fst m) - fst (fst m)) <= mw -> IZR k * (snd (snd m) - fst (snd m)) <= mh -> IZR k <= scale c.
Proof.
  intros H MW MH Hb B1 B2 B3 B4 [b0 I0] K KW KH. unfold layers_context, layers_scale in H. rewrite ranges_eq in H.
  destruct (range_has l b0 ((10000, -10000), (10000, -10000)) I0) as [A0 A1]. destruct (Hb b0 I0) as (C0 & C1 & C2 & C3).
  (* the first step replaces the start values *)
  assert (R : forall l r, (forall b, In (Some b) l -> within (fst b) (fst m) /\ within (snd b) (snd m)) -> fst (fst m) <= fst (fst r) -> snd (fst r) <= snd (fst m) -> fst (snd m) <= fst (snd r) -> snd (snd r) <= snd (snd m) ->
    within (fst (fold_left step_range l r)) (fst m) /\ within (snd (fold_left step_range l r)) (snd m)).
  { intros l' r Hl D1 D2 D3 D4. apply range_within; [split; assumption|split; assumption|exact Hl]. }
  destruct (R l ((10000, -10000), (10000, -10000))) as [W1 W2].
  { intros b I. destruct (Hb b I) as (? & ? & _). auto. }
  all: cbn [fst snd]. all: unfold within in *; try lra.
  set (r := fold_left step_range _ _) in *. destruct (Req_EM_T _ 0) as [|N1]; [discriminate|]. destruct (Req_EM_T _ 0) as [|N2]; [discriminate|]. cbn [bind] in H.
  assert (Sc : scale c = floor (Rmin (mw / (snd (fst r) - fst (fst r))) (mh / (snd (snd r) - fst (snd r))))).
  { destruct l as [|[x|] l]; try discriminate. injection H as <-. reflexivity. }
  rewrite Sc. rewrite <- (floor_int k). apply floor_mono. assert (0 <= IZR k) by (now apply IZR_le). apply Rmin_glb; apply le_div; nra.
Qed.
Lemma too_wide b l mw mh inv mir c : layers_context (Some b :: l) mw mh inv mir = Ok c -> 0 <= mw -> 0 <= mh -> fst (fst b) <= snd (fst b) -> fst (snd b) <= snd (snd b) ->
  mw < snd (fst b) - fst (fst b) -> size_px c = (0, 0).
Proof.
  unfold layers_context, layers_scale. rewrite ranges_eq. destruct (range_has (Some b :: l) b ((10000, -10000), (10000, -10000)) (or_introl eq_refl)) as [A B].
  set (r := fold_left step_range _ _) in *. intros H MW MH X Y Wide. destruct (Req_EM_T _ 0) as [|N1]; [discriminate|]. destruct (Req_EM_T _ 0) as [|N2]; [discriminate|]. cbn [bind] in H. injection H as <-.
  unfold within in *. assert (W : 0 < snd (fst r) - fst (fst r)) by lra. assert (Hh : 0 < snd (snd r) - fst (snd r)) by lra.
  set (m := Rmin _ _). assert (M0 : 0 <= m) by (apply Rmin_glb; now apply div_nonneg).
  assert (M1 : m < 1). { apply Rmult_lt_reg_r with (snd (fst r) - fst (fst r)); [exact W|]. assert (m * (snd (fst r) - fst (fst r)) <= mw) by (apply div_le; [exact W|apply Rmin_l]). lra. }
  unfold size_px, scale_point. cbn [fst snd size scale set_bounds]. fold m. rewrite (floor_is 0 m) by lra. f_equal; ring.
Qed.

(** ** Layers with one dark primitive *)
Lemma one_layer fill s b mir d img : 0 < s -> fst (fst b) <= snd (fst b) -> fst (snd b) <= snd (snd b) -> dark d = true ->
  render_layer fill (set_bounds s b false mir) [Single d] = Ok img ->
  exists l, mask fill (set_bounds s b false mir) true (what d) = Ok l /\ forall p, inside b p ->
    (img (pixel s b mir p) -> drawing l (magnify s p)) /\
    (drawing l (magnify s p) -> inside (bbox d) p -> s * snd p <= s * snd (snd (bbox d)) - 1 -> img (pixel s b mir p)).
Proof.
  intros S X Y D H. unfold render_layer in H. cbn [flat_map parts app render_all] in H. unfold render in H. rewrite D in H. destruct (mask _ _ _ _) as [l|]; [|discriminate]. exists l. split; [reflexivity|].
  cbn [bind] in H. injection H as <-. intros p I. unfold draw, layer_operator. cbn [invert set_bounds negb andb].
  destruct (context_fits' b s false mir S X Y) as (S' & Eo & Es). pose proof (masked_at (set_bounds s b false mir) b (bbox d) (drawing l) p S' I Eo Es) as Q. cbn [scale mirror set_bounds] in Q. fold (set_bounds s b false mir) in *.
  split.
  - intros [[? _]|M]; [discriminate|]. now apply Q in M as [M _].
  - intros M Ib T. right. apply Q. split; [exact M|]. now apply (clip_covers (set_bounds s b false mir)).
Qed.
Lemma one_shows fill d p : dark d = true -> layer_shows fill [Single d] p <-> prim_shape fill (what d) p.
Proof. intro D. unfold layer_shows. rewrite <- puts_darkened. unfold puts. cbn [map fold_left item_shape]. unfold drawn_shape, put. cbn [fst snd]. rewrite D. tauto. Qed.

Lemma clockwise_layer fill s b mir d a w r f img : 0 < s -> fst (fst b) <= snd (fst b) -> fst (snd b) <= snd (snd b) -> dark d = true -> what d = PArc a w -> 0 < w ->
  arc_is a r f (2 * PI) -> a_quad a = MultiQuadrant -> a_dir a = Clockwise ->
  render_layer fill (set_bounds s b false mir) [Single d] = Ok img -> forall p, inside b p -> img (pixel s b mir p) ->
  Rabs (fst p - fst (a_start a)) <= w / 2 + r / 1000000000 /\ Rabs (snd p - snd (a_start a)) <= w / 2 + r / 1000000000.
Proof.
  intros S X Y D W P A Q Di R p I H. destruct (one_layer fill s b mir d img S X Y D R) as (l & M & E). apply (proj1 (E p I)) in H. rewrite W in M. cbn [mask] in M. destruct (Req_EM_T w 0); [lra|]. injection M as <-.
  apply (proj1 (one_over _ _)) in H. pose proof (clockwise_circle (set_bounds s b false mir) a r f w p S A Q Di H) as K. unfold tiny in K. lra.
Qed.
Lemma counterclockwise_layer fill s b mir d a w r f img : 0 < s -> fst (fst b) <= snd (fst b) -> fst (snd b) <= snd (snd b) -> dark d = true -> what d = PArc a w -> 0 < w ->
  arc_is a r f (2 * PI) -> a_quad a = MultiQuadrant -> a_dir a = Counterclockwise ->
  render_layer fill (set_bounds s b false mir) [Single d] = Ok img -> forall p, inside b p ->
  (img (pixel s b mir p) -> layer_shows fill [Single d] p) /\
  (r * 4 / 1000000000 <= w -> encloses (bbox d) (prim_shape fill (what d)) -> below_top fill s [Single d] p -> on_arc a p -> img (pixel s b mir p)).
Proof.
  intros S X Y D W P A Q Di R p I. destruct (one_layer fill s b mir d img S X Y D R) as (l & M & E). destruct (E p I) as [E1 E2]. rewrite W in M. cbn [mask] in M. destruct (Req_EM_T w 0); [lra|]. injection M as <-.
  destruct (counterclockwise_circle (set_bounds s b false mir) a r f w p S A Q Di P) as [K1 K2]. rewrite one_shows by exact D. split.
  - intro H. rewrite W. cbn [prim_shape]. apply E1, (proj1 (one_over _ _)) in H. auto.
  - intros L B T O. assert (Sh : prim_shape fill (what d) p). { rewrite W. cbn [prim_shape]. exists p, (0, 0). split; [exact O|]. split; [unfold disc, dist2; cbn [fst snd]; nra|destruct p; cbn; f_equal; ring]. }
    apply E2; [apply one_over, K2; [unfold tiny; lra|exact O]|now apply B|]. apply T; [now left|exact Sh].
Qed.
Lemma region_layer fill s b mir d a r f img : filling fill -> 0 < s -> fst (fst b) <= snd (fst b) -> fst (snd b) <= snd (snd b) -> dark d = true -> what d = PRegion [SArc a] ->
  arc_is a r f (2 * PI) -> render_layer fill (set_bounds s b false mir) [Single d] = Ok img -> forall p, inside b p -> img (pixel s b mir p) -> fill [] p.
Proof.
  intros F S X Y D W A R p I H. destruct (one_layer fill s b mir d img S X Y D R) as (l & M & E). apply (proj1 (E p I)) in H. rewrite W in M.
  destruct (region_circle fill (set_bounds s b false mir) true a r f F A S) as (sh & M' & K). rewrite M' in M. injection M as <-. apply (proj1 (one_over _ _)) in H. now apply K.
Qed.
Lemma between_nothing p : ~ between [] p.
Proof. intros [(q & r & (g & t & I & _) & _) _]. destruct I. Qed.

(** A circle round (5, 5) *)
Definition ring (d : direction) : arc := mkArc (6, 5) (6, 5) (5, 5) d MultiQuadrant.
Definition ring_drawn (d : direction) : drawn := mkDrawn true ((3, 7), (3, 8)) (PArc (ring d) (1 / 10)).
Definition disc_drawn (d : direction) : drawn := mkDrawn true ((3, 7), (3, 8)) (PRegion [SArc (ring d)]).
Lemma ring_is d : arc_is (ring d) 1 0 (2 * PI).
Proof.
  pose proof PI_RGT_0. split; [lra|]. split; [lra|]. unfold ring, at_angle. cbn [a_start a_center a_end a_dir fst snd].
  assert (E : cos (turning d 0 (2 * PI)) = 1 /\ sin (turning d 0 (2 * PI)) = 0).
  { destruct d; cbn [turning]; [replace (0 - 2 * PI) with (- (2 * PI)) by ring; rewrite cos_neg, sin_neg|replace (0 + 2 * PI) with (2 * PI) by ring]; rewrite cos_2PI, sin_2PI; split; ring. }
  destruct E as [-> ->]. rewrite cos_0, sin_0. split; apply pt_eq; ring.
Qed.
Lemma ring_left d : on_arc (ring d) (4, 5).
Proof.
  pose proof PI_RGT_0. exists 1, 0, (2 * PI), PI. split; [apply ring_is|]. split; [lra|]. unfold ring, at_angle. cbn [a_center a_dir fst snd].
  assert (E : cos (turning d 0 PI) = -1 /\ sin (turning d 0 PI) = 0).
  { destruct d; cbn [turning]; [replace (0 - PI) with (- PI) by ring; rewrite cos_neg, sin_neg|replace (0 + PI) with PI by ring]; rewrite cos_PI, sin_PI; split; ring. }
  destruct E as [-> ->]. apply pt_eq; ring.
Qed.
Lemma ring_shows fill d : layer_shows fill [Single (ring_drawn d)] (4, 5).
Proof. apply one_shows; [reflexivity|]. cbn. exists (4, 5), (0, 0). split; [apply ring_left|]. split; [unfold disc, dist2; cbn [fst snd]; lra|cbn; f_equal; ring]. Qed.
Lemma ring_point d p : on_arc (ring d) p -> dist2 (5, 5) p = 1.
Proof.
  intros (r & f & l & t & A & T & ->). destruct (arc_unique _ _ _ _ _ _ _ (ring_is d) A) as (<- & <- & _). unfold dist2, at_angle. cbn [a_center ring fst snd]. pose proof (sin2_cos2 (turning (a_dir (ring d)) f t)) as Z. unfold Rsqr in Z. nra.
Qed.
Lemma ring_encloses fill d : encloses (bbox (ring_drawn d)) (prim_shape fill (what (ring_drawn d))).
Proof.
  intros p (q & v & Hq & V & ->). apply ring_point in Hq. apply disc_coord in V; [|lra]. destruct V as [V1 V2]. unfold dist2 in Hq. cbn [fst snd] in Hq.
  assert (Ab : forall x y, Rabs x <= y -> - y <= x <= y) by (intros x y; unfold Rabs; destruct (Rcase_abs x); lra). apply Ab in V1. apply Ab in V2. pose proof (pow2_ge_0 (5 - fst q)). pose proof (pow2_ge_0 (5 - snd q)). assert (-1 <= fst q - 5 <= 1) by (apply (sq_le_abs _ 1); lra). assert (-1 <= snd q - 5 <= 1) by (apply (sq_le_abs _ 1); lra). unfold inside. cbn [bbox ring_drawn fst snd]. lra.
Qed.

(** ** Nothing outside the bounds of the first layer *)
Lemma on_surface_only fill c l : forall layer img : shape, (forall q, layer q -> on_surface c q) -> render_all fill c l layer = Ok img -> forall q, img q -> on_surface c q.
Proof.
  induction l as [|d l IH]; intros layer img L H q Q; [injection H as <-; auto|]. cbn [render_all] in H. unfold render in H. destruct (mask _ _ _ _) as [m|]; [|discriminate]. cbn [bind] in H.
  refine (IH _ _ _ H q Q). intros q' D. unfold draw in D. destruct (layer_operator c (dark d)); [destruct D as [D|D]; [auto|now destruct D]|destruct D; auto].
Qed.
Lemma cut_off fill b l mw mh inv mir c items img : layers_context (Some b :: l) mw mh inv mir = Ok c -> 0 <= mw -> 0 <= mh -> fst (fst b) <= snd (fst b) -> fst (snd b) <= snd (snd b) ->
  0 < scale c -> render_layer fill c items = Ok img -> forall p, img (pixel (scale c) b mir p) -> inside b p.
Proof.
  intros H MW MH X Y S R p Ip. destruct (layers_fit b l mw mh inv mir c H MW MH X Y) as (E & _). assert (O : on_surface c (pixel (scale c) b mir p)).
  { refine (on_surface_only fill c _ _ img _ R _ Ip). now intros q [_ ?]. }
  revert O. rewrite E. unfold on_surface, size_px, scale_point, pixel. cbn [fst snd size scale set_bounds]. set (s := scale c) in *. rewrite !Rabs_right by lra. intros [[O1 O2] [O3 O4]].
  assert (K : forall x y, s * x <= y * s -> x <= y) by (intros; apply Rmult_le_reg_l with s; lra). assert (K0 : forall x, 0 <= s * x -> 0 <= x) by (intros; apply Rmult_le_reg_l with s; lra).
  apply K in O2. apply K in O4. apply K0 in O1. apply K0 in O3. unfold inside. destruct mir; lra.
Qed.

(** ** The statements *)
Lemma in_bounds fill b s inv mir l (img : shape) p : 0 < s -> fst (fst b) <= snd (fst b) -> fst (snd b) <= snd (snd b) ->
  render_layer fill (set_bounds s b inv mir) l = Ok img -> img (pixel s b mir p) -> inside b p.
Proof.
  intros S X Y R Ip. assert (O : on_surface (set_bounds s b inv mir) (pixel s b mir p)) by (refine (on_surface_only fill _ _ _ img _ R _ Ip); now intros q [_ ?]).
  revert O. unfold on_surface, size_px, scale_point, pixel. cbn [fst snd size scale set_bounds]. rewrite !Rabs_right by lra. intros [[O1 O2] [O3 O4]].
  assert (K : forall x y, s * x <= y * s -> x <= y) by (intros; apply Rmult_le_reg_l with s; lra). assert (K0 : forall x, 0 <= s * x -> 0 <= x) by (intros; apply Rmult_le_reg_l with s; lra).
  apply K in O2. apply K in O4. apply K0 in O1. apply K0 in O3. unfold inside. destruct mir; lra.
Qed.
Definition top_claim : Prop := forall fill b s mir l, filling fill -> 0 < s -> fst (fst b) <= snd (fst b) -> fst (snd b) <= snd (snd b) -> Forall (renderable_item fill) l ->
  exists img, render_layer fill (set_bounds s b false mir) l = Ok img /\ forall p, inside b p -> (img (pixel s b mir p) <-> layer_shows fill l p).
Lemma top_refuted : ~ top_claim.
Proof.
  intro H. destruct (H between ten 1 false [Single low] between_filling) as (img & R & E); [lra|cbn; lra|cbn; lra|apply Forall_cons; [exact (low_renderable between)|constructor]|].
  destruct (low_top between) as (img' & R' & L & N). rewrite R in R'. injection R' as <-. apply N, E; [unfold inside, ten, edge; cbn; lra|exact L].
Qed.
Section Pictures.
Variable fill : list curve -> shape.
Lemma block_renderable d h : 0 <= h -> (d = true \/ h = 0) -> renderable fill (block d h).
Proof.
  intros H D. split; [now apply block_encloses|]. split; [cbn; lra|]. destruct D as [->| ->]; [now left|]. right. cbn. unfold no_holes. lra.
Qed.
Definition dot : drawn := mkDrawn false ((4 + 1 / 2, 5 + 1 / 2), (4 + 1 / 2, 7)) (PCircle (5, 5) 1 0 0 0 0).
Definition picture : list item := [Single (block true 2); Group true [block true 0; block true 2]; Single dot].
Lemma dot_shape p : prim_shape fill (what dot) p <-> disc (5, 5) (1 / 2) p.
Proof. cbn [prim_shape what dot]. unfold with_holes, without, round_hole, rect_hole. split; [now intros [[? _] _]|]. intro X. split; [split; [exact X|]|]; intros [? _]; lra. Qed.
Lemma dot_renderable : renderable fill dot.
Proof.
  split; [|split; [cbn; lra|right; cbn; now left; lra]]. intros p P. apply dot_shape in P. unfold disc, dist2 in P. cbn [fst snd] in P. pose proof (pow2_ge_0 (5 - fst p)). pose proof (pow2_ge_0 (5 - snd p)).
  assert (- (1 / 2) <= 5 - fst p <= 1 / 2) by (apply sq_le_abs; lra). assert (- (1 / 2) <= 5 - snd p <= 1 / 2) by (apply sq_le_abs; lra). unfold inside. cbn. lra.
Qed.
Lemma picture_below p : snd p <= 6 -> below_top fill 1 picture p.
Proof. intros H d [<-|[<-|[<-|[<-|[]]]]] _; cbn; lra. Qed.
Lemma block_at d : prim_shape fill (what (block d 0)) (4, 4).
Proof. apply block_shape; [lra|]. split; [|intros [? _]; lra]. apply turned_zero. unfold oblong. cbn. lra. Qed.
Lemma picture_ok : Forall (renderable_item fill) picture /\
  inside ten (4, 4) /\ below_top fill 1 picture (4, 4) /\ layer_shows fill picture (4, 4) /\
  inside ten middle /\ below_top fill 1 picture middle /\ ~ layer_shows fill picture middle.
Proof.
  split; [|split; [|split; [|split; [|split; [|split]]]]].
  - apply Forall_cons; [cbn; apply block_renderable; [lra|now left]|]. apply Forall_cons; [|apply Forall_cons; [exact dot_renderable|constructor]].
    split; [reflexivity|]. apply Forall_cons; [|apply Forall_cons; [|constructor]]; (split; [apply block_renderable; [lra|now left]|reflexivity]).
  - unfold inside, ten. cbn. lra.
  - apply picture_below. cbn. lra.
  - unfold layer_shows. exists [drawn_shape fill (block true 2)], (darkened (map (drawn_shape fill) [block true 0; block true 2])), [drawn_shape fill dot]. split; [reflexivity|]. split.
    + exists [], (prim_shape fill (what (block true 0))), [drawn_shape fill (block true 2)]. split; [reflexivity|]. split; [apply block_at|]. intros s' [E|[]]. discriminate.
    + intros s' [E|[]] D. injection E as <-. apply dot_shape in D. unfold disc, dist2 in D. cbn [fst snd] in D. lra.
  - exact middle_in.
  - apply picture_below. unfold middle. cbn. lra.
  - unfold layer_shows. rewrite <- puts_darkened. unfold puts, picture. cbn [map fold_left item_shape]. intro H. unfold put at 1 in H. change (fst (drawn_shape fill dot)) with false in H. cbv iota in H. destruct H as [_ N]. apply N. change (prim_shape fill (what dot) middle).
    apply dot_shape. unfold disc, dist2, middle. cbn [fst snd]. lra.
Qed.
Lemma inverted_clear_refuted : exists l img, Forall (renderable_item fill) l /\ render_layer fill (set_bounds 1 ten true false) l = Ok img /\
  below_top fill 1 l middle /\ ~ layer_shows fill l middle /\ ~ img (pixel 1 ten false middle).
Proof.
  destruct (inverted_clear fill) as (img & R & A & B). exists [Single (block true 0); Single (block false 0)], img. split; [|split; [exact R|split; [apply two_below|auto]]].
  apply Forall_cons; [cbn; apply block_renderable; [lra|now left]|apply Forall_cons; [cbn; apply block_renderable; [lra|now right]|constructor]].
Qed.
Lemma inverted_hole_refuted : exists l img, Forall (renderable_item fill) l /\ render_layer fill (set_bounds 1 ten true false) l = Ok img /\
  below_top fill 1 l middle /\ ~ layer_shows fill l middle /\ ~ img (pixel 1 ten false middle) /\ Forall (fun d => dark d = true) (flat_map parts l).
Proof.
  destruct (inverted_hole fill) as (img & R & A & B). exists (one_block true 2), img. split; [|split; [exact R|split; [|split; [auto|split; [auto|]]]]].
  - apply Forall_cons; [cbn; apply block_renderable; [lra|now left]|constructor].
  - intros d [<-|[]] _. unfold middle. cbn. lra.
  - apply Forall_cons; [reflexivity|constructor].
Qed.
Lemma one_block_ok : Forall (invertible_item fill) (one_block true 0) /\ layer_shows fill (one_block true 0) middle /\ ~ layer_shows fill (one_block true 0) (1, 1) /\ inside ten (1, 1).
Proof.
  split; [|split; [|split]].
  - apply Forall_cons; [|constructor]. split; [apply block_encloses; lra|]. split; [cbn; lra|]. split; [reflexivity|]. cbn. unfold no_holes. lra.
  - apply one_shows; [reflexivity|]. apply block_shape_middle; [lra|reflexivity].
  - intro H. apply one_shows in H; [|reflexivity]. apply block_encloses in H; [|lra]. unfold inside in H. cbn in H. lra.
  - unfold inside, ten. cbn. lra.
Qed.
Lemma shape_ok b s inv mir d p : filling fill -> 0 < s -> simple p -> (inv = false /\ (d = true \/ removable p) \/ solid p) ->
  exists l, mask fill (set_bounds s b inv mir) d p = Ok l /\ forall v, drawing l (magnify s v) <-> prim_shape fill p v.
Proof.
  intros F S Si H. apply (mask_ok fill (set_bounds s b inv mir) d p F S Si). cbn [invert set_bounds]. revert H. clear. destruct p; cbn; auto; intros [[-> [->|H]]|H]; auto.
Qed.
Lemma empty_contour c d : mask fill c d (PHull []) = Err IndexError /\ mask fill c d (PRegion []) = Err IndexError.
Proof. split; reflexivity. Qed.
Lemma shapes_simple : simple (PRect (5, 5) 4 4 0 2 1 1) /\ simple (PObround (0, 0) 2 4 0 1 0 0) /\ simple (PHull [(0, 0); (1, 0); (0, 1)]) /\ simple (PRegion [SLine (0, 0) (1, 0); SLine (1, 0) (0, 1); SLine (0, 1) (0, 0)]).
Proof.
  split; [cbn; lra|]. split; [cbn; lra|]. split; [discriminate|]. eexists. eexists. split; [reflexivity|]. split; [cbn; auto|]. repeat (apply Forall_cons; [exact I|]). constructor.
Qed.
Lemma ring_ok d : arc_is (ring d) 1 0 (2 * PI) /\ encloses (bbox (ring_drawn d)) (prim_shape fill (what (ring_drawn d))) /\ on_arc (ring d) (4, 5) /\ 1 * 4 / 1000000000 <= 1 / 10.
Proof. split; [apply ring_is|]. split; [apply ring_encloses|]. split; [apply ring_left|lra]. Qed.
Lemma parts_ok b s mir l : filling fill -> 0 < s -> fst (fst b) <= snd (fst b) -> fst (snd b) <= snd (snd b) -> Forall (renderable fill) (flat_map parts l) ->
  exists img, render_layer fill (set_bounds s b false mir) l = Ok img /\
  forall p, inside b p -> below_top fill s l p -> (img (pixel s b mir p) <-> layer_shows fill (map Single (flat_map parts l)) p).
Proof.
  intros F S X Y R. assert (E : flat_map parts (map Single (flat_map parts l)) = flat_map parts l). { induction (flat_map parts l) as [|d ds IH]; [reflexivity|]. cbn. now rewrite IH by (now inversion R). }
  destruct (layer_ok fill b s mir (map Single (flat_map parts l)) F S X Y) as (img & H & G).
  { clear E. induction R; cbn; [constructor|]. apply Forall_cons; assumption. }
  exists img. unfold render_layer in *. rewrite E in H. split; [exact H|]. intros p Ip T. apply G; [exact Ip|]. unfold below_top in *. now rewrite E.
Qed.
Lemma macro_parts : Forall (renderable fill) (flat_map parts [Single (block true 0); Group true [block true 0; block false 0]]).
Proof. cbn [flat_map parts app]. apply Forall_cons; [|apply Forall_cons; [|apply Forall_cons; [|constructor]]]; apply block_renderable; try lra; auto. Qed.
End Pictures.
Definition macros_claim : Prop := forall fill b s mir l, filling fill -> 0 < s -> fst (fst b) <= snd (fst b) -> fst (snd b) <= snd (snd b) -> Forall (renderable fill) (flat_map parts l) ->
  exists img, render_layer fill (set_bounds s b false mir) l = Ok img /\ forall p, inside b p -> below_top fill s l p -> (img (pixel s b mir p) <-> layer_shows fill l p).
Lemma macros_refuted : ~ macros_claim.
Proof.
  intro H. destruct (H between ten 1 false [Single (block true 0); Group true [block true 0; block false 0]] between_filling) as (img & R & E); [lra|cbn; lra|cbn; lra|apply macro_parts|].
  destruct (exposure_off between) as (img' & R' & L & N). rewrite R in R'. injection R' as <-. apply N, E; [exact middle_in| |exact L].
  intros d [<-|[<-|[<-|[]]]] _; unfold middle; cbn; lra.
Qed.
Definition full_circle_claim : Prop := forall fill b s mir d a w r f, filling fill -> 0 < s -> fst (fst b) <= snd (fst b) -> fst (snd b) <= snd (snd b) -> dark d = true -> what d = PArc a w -> 0 < w ->
  arc_is a r f (2 * PI) -> a_quad a = MultiQuadrant -> encloses (bbox d) (prim_shape fill (what d)) ->
  exists img, render_layer fill (set_bounds s b false mir) [Single d] = Ok img /\ forall p, inside b p -> below_top fill s [Single d] p -> on_arc a p -> img (pixel s b mir p).
Lemma full_circle_refuted : ~ full_circle_claim.
Proof.
  intro H. destruct (H between ten 1 false (ring_drawn Clockwise) (ring Clockwise) (1 / 10) 1 0 between_filling) as (img & R & E); try (cbn; lra); try reflexivity; [apply ring_is|apply ring_encloses|].
  assert (Ip : inside ten (4, 5)) by (unfold inside, ten; cbn; lra).
  destruct (clockwise_layer between 1 ten false (ring_drawn Clockwise) (ring Clockwise) (1 / 10) 1 0 img) with (p := (4, 5)) as [A _]; try (cbn; lra); try reflexivity; try assumption; [apply ring_is| |].
  - apply E; [exact Ip| |apply ring_left]. intros d [<-|[]] _. cbn. lra.
  - cbn [fst snd ring a_start] in A. rewrite Rabs_left in A; lra.
Qed.
Lemma round_trip d : exists t1 t2, 0 <= t1 <= 1 /\ 0 <= t2 <= 1 /\ let g := curved (5, 5) 1 0 (match d with Counterclockwise => 2 * PI | Clockwise => - (2 * PI) end) in
  g 0 = (6, 5) /\ g (1 / 2) = (4, 5) /\ g t1 = (5, 6) /\ g t2 = (5, 4).
Proof.
  assert (E : forall x y, x = y -> cos x = cos y /\ sin x = sin y) by (intros; subst; auto).
  destruct d; [exists (3 / 4), (1 / 4)|exists (1 / 4), (3 / 4)]; (split; [lra|]; split; [lra|]); cbn zeta; unfold curved, at_angle; cbn [fst snd].
  - destruct (E (0 + 0 * - (2 * PI)) 0) as [-> ->]; [ring|]. destruct (E (0 + 1 / 2 * - (2 * PI)) (- PI)) as [-> ->]; [field|]. destruct (E (0 + 3 / 4 * - (2 * PI)) (- (3 * (PI / 2)))) as [-> ->]; [field|]. destruct (E (0 + 1 / 4 * - (2 * PI)) (- (PI / 2))) as [-> ->]; [field|].
    rewrite !cos_neg, !sin_neg, cos_0, sin_0, cos_PI, sin_PI, cos_PI2, sin_PI2, cos_3PI2, sin_3PI2. repeat split; apply pt_eq; ring.
  - destruct (E (0 + 0 * (2 * PI)) 0) as [-> ->]; [ring|]. destruct (E (0 + 1 / 2 * (2 * PI)) PI) as [-> ->]; [field|]. destruct (E (0 + 1 / 4 * (2 * PI)) (PI / 2)) as [-> ->]; [field|]. destruct (E (0 + 3 / 4 * (2 * PI)) (3 * (PI / 2))) as [-> ->]; [field|].
    rewrite cos_0, sin_0, cos_PI, sin_PI, cos_PI2, sin_PI2, cos_3PI2, sin_3PI2. repeat split; apply pt_eq; ring.
Qed.
Lemma disc_shows d : layer_shows between [Single (disc_drawn d)] (5, 5).
Proof.
  apply one_shows; [reflexivity|]. cbn [what disc_drawn prim_shape]. destruct (round_trip d) as (t1 & t2 & T1 & T2 & G0 & G1 & G2 & G3). set (g := curved _ _ _ _) in *.
  exists [g]. split; [constructor; [|constructor]; exists 1, 0, (2 * PI); split; [apply ring_is|reflexivity]|].
  assert (M : forall t, 0 <= t <= 1 -> moving [g] (g t)). { intros t Ht. exists g, t. split; [now left|]. split; [|auto]. intro St. rewrite (St (1 / 2)) in G1. rewrite G0 in G1. injection G1. lra. }
  split.
  - exists (4, 5), (6, 5). rewrite <- G0, <- G1. split; [apply M; lra|]. split; [apply M; lra|]. rewrite G0, G1. cbn. lra.
  - exists (5, 4), (5, 6). rewrite <- G2, <- G3. split; [apply M; lra|]. split; [apply M; lra|]. rewrite G2, G3. cbn. lra.
Qed.
Lemma two_layers : layers_context [Some ten; None; Some ((0, 20), (0, 10))] 25 20 false false = Ok (set_bounds 1 ten false false).
Proof.
  unfold layers_context, layers_scale, ranges, widen, ten. cbn [fold_left fst snd]. rewrite (Rmin_right 10000 0), (Rmax_right (-10000) 10) by lra. rewrite (Rmin_left 0 0), (Rmax_right 10 20), (Rmax_left 10 10) by lra.
  destruct (Req_EM_T _ 0); [lra|]. destruct (Req_EM_T _ 0); [lra|]. cbn [bind]. rewrite Rmin_left by lra. now rewrite (floor_is 1) by lra.
Qed.
Definition layers_claim : Prop := forall fill b b' mw mh c l img p, filling fill -> layers_context [Some b; Some b'] mw mh false false = Ok c -> 0 < scale c ->
  Forall (renderable_item fill) l -> render_layer fill c l = Ok img -> inside b' p -> below_top fill (scale c) l p -> layer_shows fill l p -> img (pixel (scale c) b false p).
Definition far : drawn := mkDrawn true ((13, 17), (3, 8)) (PCircle (15, 5) 4 0 0 0 0).
Lemma far_shape fill p : prim_shape fill (what far) p <-> disc (15, 5) 2 p.
Proof. cbn [prim_shape what far]. unfold with_holes, without, round_hole, rect_hole. replace (4 / 2) with 2 by field. split; [now intros [[? _] _]|]. intro X. split; [split; [exact X|]|]; intros [? _]; lra. Qed.
Lemma far_renderable fill : renderable fill far.
Proof.
  split; [|split; [cbn; lra|now left]]. intros p P. apply far_shape in P. unfold disc, dist2 in P. cbn [fst snd] in P. pose proof (pow2_ge_0 (15 - fst p)). pose proof (pow2_ge_0 (5 - snd p)).
  assert (- 2 <= 15 - fst p <= 2) by (apply sq_le_abs; lra). assert (- 2 <= 5 - snd p <= 2) by (apply sq_le_abs; lra). unfold inside. cbn. lra.
Qed.
Lemma layers_refuted : ~ layers_claim.
Proof.
  intro H. assert (L : layers_context [Some ten; Some ((0, 20), (0, 10))] 25 20 false false = Ok (set_bounds 1 ten false false)) by exact two_layers.
  assert (R : Forall (renderable_item between) [Single far]) by (apply Forall_cons; [apply far_renderable|constructor]).
  destruct (layer_ok between ten 1 false [Single far] between_filling) as (img & E & _); [lra|cbn; lra|cbn; lra|exact R|].
  assert (X : img (pixel 1 ten false (15, 5))).
  { apply (H between ten ((0, 20), (0, 10)) 25 20 (set_bounds 1 ten false false) [Single far] img (15, 5) between_filling L); try (cbn; lra); try assumption.
    - unfold inside. cbn. lra.
    - intros d [<-|[]] _. cbn. lra.
    - apply one_shows; [reflexivity|]. apply far_shape. unfold disc, dist2. cbn [fst snd]. lra. }
  apply (in_bounds between ten 1 false false [Single far] img (15, 5)) in X; try assumption; try (cbn; lra). unfold inside, ten in X. cbn in X. lra.
Qed.
Lemma first_layer : forall fill b l mw mh mir c items, filling fill -> layers_context (Some b :: l) mw mh false mir = Ok c -> 0 <= mw -> 0 <= mh -> fst (fst b) <= snd (fst b) -> fst (snd b) <= snd (snd b) ->
  0 < scale c -> Forall (renderable_item fill) items -> exists img, render_layer fill c items = Ok img /\ forall p,
  (inside b p -> below_top fill (scale c) items p -> (img (pixel (scale c) b mir p) <-> layer_shows fill items p)) /\ (img (pixel (scale c) b mir p) -> inside b p).
Proof.
  intros fill b l mw mh mir c items F H MW MH X Y S R. destruct (layers_fit b l mw mh false mir c H MW MH X Y) as (E & _). destruct (layer_ok fill b (scale c) mir items F S X Y R) as (img & Hi & G).
  exists img. rewrite E at 1. split; [exact Hi|]. intro p. split; [apply G|]. apply (in_bounds fill b (scale c) false mir items img p S X Y Hi).
Qed.
