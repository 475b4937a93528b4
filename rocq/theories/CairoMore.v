(** Where images differ from what they are expected to show, and the scale of images. *)
From Coq Require Import Lra Lia Psatz Bool Classical.
From Verif Require Import PyBase GeomProofs CairoSpec CairoProofs CairoLayer.
Import ListNotations.
Open Scope R_scope.
Open Scope list_scope.

Lemma floor_is k x : IZR k <= x < IZR k + 1 -> floor x = IZR k.
Proof.
  intro H. unfold floor. f_equal. pose proof (floor_bounds x) as B. unfold floor in B.
  assert (Int_part x < k + 1)%Z by (apply lt_IZR; rewrite plus_IZR; lra). assert (k < Int_part x + 1)%Z by (apply lt_IZR; rewrite plus_IZR; lra). lia.
Qed.
Lemma ceil_int k : ceil (IZR k) = IZR k.
Proof. unfold ceil. rewrite (floor_is (- k)); rewrite opp_IZR; lra. Qed.
Lemma floor_int k : floor (IZR k) = IZR k.
Proof. apply floor_is. lra. Qed.

(** A filling rule: everything between the sides. *)
Definition still (f : curve) : Prop := forall t, f t = f 0.
Definition moving (l : list curve) : shape := fun p => exists f t, In f l /\ ~ still f /\ 0 <= t <= 1 /\ p = f t.
Definition between (l : list curve) : shape := surrounded (moving l).
Lemma moving_same l l' p : same l l' -> moving l p -> moving l' p.
Proof.
  intros H (f & t & I & N & T & E). unfold same in H. induction H; [easy|]. destruct I as [->|I].
  - exists y, t. split; [now left|]. split; [intro Q; apply N; intro u; rewrite !H; apply Q|]. split; [exact T|]. now rewrite <- H.
  - destruct (IHForall2 I) as (g & u & J & G & U & F). exists g, u. split; [now right|]. auto.
Qed.
Lemma moving_still l1 f l2 p : still f -> moving (l1 ++ f :: l2) p <-> moving (l1 ++ l2) p.
Proof.
  intro S. split; intros (g & t & I & N & T & E); exists g, t; split; auto.
  - apply in_app_or in I as [I|[<-|I]]; [apply in_or_app; now left|now exfalso|apply in_or_app; now right].
  - apply in_app_or in I as [I|I]; apply in_or_app; [now left|right; now right].
Qed.
Lemma moving_magnify s l p : 0 < s -> moving (mags s l) (magnify s p) <-> moving l p.
Proof.
  intro S. split.
  - intros (f & t & I & N & T & E). apply in_map_iff in I as (g & <- & I). exists g, t. split; [exact I|]. split; [intro Q; apply N; intro u; f_equal; apply Q|]. split; [exact T|]. now apply (magnify_inj s).
  - intros (f & t & I & N & T & E). exists (fun t => magnify s (f t)), t. split; [apply in_map_iff; now exists f|]. split; [intro Q; apply N; intro u; apply (magnify_inj s); [exact S|apply Q]|]. split; [exact T|now rewrite E].
Qed.
Lemma surrounded_iff (a b : shape) p : (forall q, a q <-> b q) -> surrounded a p <-> surrounded b p.
Proof.
  intro H. unfold surrounded. split; intros [(q & r & A & B & C) (q' & r' & A' & B' & C')]; (split; [exists q, r|exists q', r']); split; try (apply H; assumption); split; try (apply H; assumption); auto.
Qed.
Lemma between_filling : filling between.
Proof.
  constructor.
  - intros l l' p H. apply surrounded_iff. intro q. split; apply moving_same; [exact H|now apply same_sym].
  - intros l1 f l2 p S. apply surrounded_iff. intro q. now apply moving_still.
  - intros s l p S. assert (Q : forall q, moving (mags s l) q <-> exists q', moving l q' /\ q = magnify s q').
    { intro q. assert (q = magnify s (fst q / s, snd q / s)) as E by (destruct q; unfold magnify; cbn; f_equal; field; lra). rewrite E. split.
      - intro M. eexists. split; [apply (moving_magnify s); [exact S|exact M]|reflexivity].
      - intros (q' & M & E'). apply magnify_inj in E'; [|exact S]. rewrite E'. now apply moving_magnify. }
    unfold between. split.
    + intros [(q & r & A & B & C) (q' & r' & A' & B' & C')]. apply Q in A as (a & A & ->), B as (b & B & ->), A' as (a' & A' & ->), B' as (b' & B' & ->). cbn in *.
      split; [exists a, b|exists a', b']; (split; [assumption|]; split; [assumption|]); split; apply Rmult_le_reg_l with s; lra.
    + intros [(q & r & A & B & C) (q' & r' & A' & B' & C')].
      assert (G : forall x, moving l x -> moving (mags s l) (magnify s x)) by (intros x X; apply Q; now exists x).
      split; [exists (magnify s q), (magnify s r)|exists (magnify s q'), (magnify s r')]; (split; [now apply G|]; split; [now apply G|]); cbn; split; apply Rmult_le_compat_l; lra.
Qed.

(** ** Witnesses *)
Section Witness.
Variable fill : list curve -> shape.
Hypothesis F : filling fill.
Definition ten : rbox := ((0, 10), (0, 10)).
Notation C inv := (set_bounds 1 ten inv false).
Lemma ten_fits inv : fits ten (C inv).
Proof. apply context_fits'; cbn; lra. Qed.
Lemma render_step inv d layer l p : mask fill (C inv) (dark d) (what d) = Ok l -> inside ten p -> inside (bbox d) p -> snd p <= snd (snd (bbox d)) - 1 ->
  exists img, render fill (C inv) d layer = Ok img /\
  (img (pixel 1 ten false p) <-> put p (layer (pixel 1 ten false p)) (negb inv && dark d, fun v => drawing l (magnify 1 v))).
Proof.
  intros M I J T. unfold render. rewrite M. cbn [bind]. eexists. split; [reflexivity|].
  assert (H : masked (C inv) (bbox d) (drawing l) (pixel 1 ten false p) <-> drawing l (magnify 1 p)).
  { destruct (ten_fits inv) as (S & Eo & Es). pose proof (masked_at (C inv) ten (bbox d) (drawing l) p S I Eo Es) as Q. cbn [scale mirror set_bounds] in Q. fold (set_bounds 1 ten inv false) in Q. rewrite Q. split; [now intros [? _]|].
    intro D. split; [exact D|]. apply (clip_covers (C inv)); auto. cbn. lra. }
  unfold draw, layer_operator, put. cbn [fst snd invert set_bounds]. fold (set_bounds 1 ten inv false). destruct (negb inv && dark d); now rewrite H.
Qed.
Lemma magnify_1 p : magnify 1 p = p.
Proof. destruct p. unfold magnify. cbn. f_equal; ring. Qed.

Definition block (d : bool) (hole : R) : drawn := mkDrawn d ((3, 7), (3, 7)) (PRect (5, 5) 4 4 0 hole 0 0).
Definition middle : pt := (5, 5).
Lemma block_mask inv d hole : 0 <= hole -> exists l, mask fill (C inv) d (what (block d hole)) = Ok l /\
  (drawing l (magnify 1 middle) <-> (0 < hole -> d = true /\ inv = false -> False)).
Proof.
  intro Ho. cbn [what block mask]. eexists. split; [reflexivity|].
  assert (B : rectangle_path (C inv) (5, 5) 4 4 0 (magnify 1 middle)).
  { apply (rectangle_mask (C inv)); [cbn; lra|lra|lra|]. apply turned_zero. unfold oblong, middle. cbn. lra. }
  assert (D : c_disc (scale_point (C inv) (5, 5)) (hole / 2 * scale (C inv)) (magnify 1 middle) <-> 0 < hole).
  { rewrite scale_magnify. cbn [scale set_bounds]. rewrite c_disc_magnify by lra. unfold disc, dist2, middle. cbn [fst snd]. split; [intros [? _]; lra|]. intro. split; [lra|nra]. }
  unfold holes. destruct (Rlt_dec 0 hole) as [P|P].
  - destruct (Rlt_dec 0 0); [lra|]. cbn [app]. unfold drawing. cbn [fold_left fst snd]. destruct (hole_operator (C inv) d) eqn:E; cbn [draw].
    + assert (~ (d = true /\ inv = false)). { intro X. assert (hole_operator (C inv) d = Clear) by now apply hole_op. congruence. } tauto.
    + apply hole_op in E. cbn in E. tauto.
  - destruct (Rlt_dec 0 0); [lra|]. cbn [app]. unfold drawing. cbn. tauto.
Qed.
Lemma block_shape d hole p : 0 <= hole -> prim_shape fill (what (block d hole)) p <-> turned (5, 5) 0 (oblong 4 4) p /\ ~ (0 < hole /\ disc (5, 5) (hole / 2) p).
Proof.
  intro H. cbn [prim_shape what block]. unfold with_holes, without, round_hole, rect_hole. split.
  - now intros [? _].
  - intros X. split; [exact X|]. intros [? _]. lra.
Qed.
Lemma block_covers : turned (5, 5) 0 (oblong 4 4) middle.
Proof. apply turned_zero. unfold oblong, middle. cbn. lra. Qed.
Lemma block_shape_middle d hole : 0 <= hole -> prim_shape fill (what (block d hole)) middle <-> hole = 0.
Proof.
  intro H. rewrite block_shape by exact H. assert (X : disc (5, 5) (hole / 2) middle) by (unfold disc, dist2, middle; cbn [fst snd]; nra). pose proof block_covers. split.
  - intros [_ N]. destruct (Rle_lt_or_eq_dec 0 hole H); [exfalso; auto|auto].
  - intros ->. split; [assumption|]. intros [? _]. lra.
Qed.
Lemma block_encloses d hole : 0 <= hole -> encloses (bbox (block d hole)) (prim_shape fill (what (block d hole))).
Proof. intros H p P. apply block_shape in P as [P _]; [|exact H]. apply turned_zero in P. unfold oblong in P. unfold inside. cbn in *. lra. Qed.
Lemma middle_in : inside ten middle. Proof. unfold inside, ten, middle. cbn. lra. Qed.

Definition boxes_right (l : list item) : Prop := Forall (fun d => encloses (bbox d) (prim_shape fill (what d))) (flat_map parts l).

(** Two blocks *)
Lemma two_blocks inv d1 h1 d2 h2 : 0 <= h1 -> 0 <= h2 -> exists img,
  render_layer fill (C inv) [Single (block d1 h1); Single (block d2 h2)] = Ok img /\
  (img (pixel 1 ten false middle) <->
   (put middle (put middle (inv = true) (negb inv && d1, fun _ => 0 < h1 -> d1 = true /\ inv = false -> False)) (negb inv && d2, fun _ => 0 < h2 -> d2 = true /\ inv = false -> False))).
Proof.
  intros H1 H2. unfold render_layer. cbn [flat_map parts app render_all].
  destruct (block_mask inv d1 h1 H1) as (l1 & M1 & D1). destruct (block_mask inv d2 h2 H2) as (l2 & M2 & D2).
  assert (I : inside (bbox (block d1 h1)) middle) by (unfold inside, middle; cbn; lra).
  destruct (render_step inv (block d1 h1) (fun q => invert (C inv) = true /\ on_surface (C inv) q) l1 middle M1 middle_in I) as (img1 & -> & E1); [cbn; lra|]. cbn [bind].
  destruct (render_step inv (block d2 h2) img1 l2 middle M2 middle_in I) as (img2 & -> & E2); [cbn; lra|]. cbn [bind]. exists img2. split; [reflexivity|].
  rewrite E2. assert (O : invert (C inv) = true /\ on_surface (C inv) (pixel 1 ten false middle) <-> inv = true).
  { cbn [invert set_bounds]. split; [now intros [? _]|]. intro X. split; [exact X|]. unfold on_surface, size_px, scale_point, pixel, ten, middle. cbn [fst snd size scale set_bounds]. rewrite Rabs_right by lra. lra. }
  unfold put at 1 3. cbn [fst snd dark block]. destruct (negb inv && d2); rewrite E1, D2; unfold put; cbn [fst snd dark block]; destruct (negb inv && d1); rewrite D1, O; reflexivity.
Qed.
Lemma shows_two d1 h1 d2 h2 : layer_shows fill [Single (block d1 h1); Single (block d2 h2)] middle <->
  put middle (put middle False (drawn_shape fill (block d1 h1))) (drawn_shape fill (block d2 h2)).
Proof. unfold layer_shows. rewrite <- puts_darkened. reflexivity. Qed.
Lemma two_boxes d1 h1 d2 h2 : 0 <= h1 -> 0 <= h2 -> boxes_right [Single (block d1 h1); Single (block d2 h2)].
Proof. intros. apply Forall_cons; [now apply block_encloses|]. apply Forall_cons; [now apply block_encloses|constructor]. Qed.
Lemma two_below d1 h1 d2 h2 : below_top fill 1 [Single (block d1 h1); Single (block d2 h2)] middle.
Proof. intros d [<-|[<-|[]]] _; unfold middle; cbn; lra. Qed.

(** An inverted layer: something cleared again, and a hole *)
Lemma inverted_clear : exists img, render_layer fill (C true) [Single (block true 0); Single (block false 0)] = Ok img /\
  ~ layer_shows fill [Single (block true 0); Single (block false 0)] middle /\ ~ img (pixel 1 ten false middle).
Proof.
  destruct (two_blocks true true 0 false 0) as (img & R & E); [lra|lra|]. exists img. split; [exact R|]. split.
  - rewrite shows_two. unfold put. cbn [drawn_shape fst snd dark block]. intros [_ N]. apply N. apply (block_shape_middle false 0); [lra|reflexivity].
  - rewrite E. unfold put. cbn. intros [[_ N] _]. apply N. intros; lra.
Qed.
Definition one_block (d : bool) (h : R) : list item := [Single (block d h)].
Lemma inverted_hole : exists img, render_layer fill (C true) (one_block true 2) = Ok img /\
  ~ layer_shows fill (one_block true 2) middle /\ ~ img (pixel 1 ten false middle).
Proof.
  unfold render_layer, one_block. cbn [flat_map parts app render_all]. destruct (block_mask true true 2) as (l & M & D); [lra|].
  destruct (render_step true (block true 2) (fun q => invert (C true) = true /\ on_surface (C true) q) l middle M middle_in) as (img & -> & E); [unfold inside, middle; cbn; lra|cbn; lra|]. cbn [bind].
  exists img. split; [reflexivity|]. split.
  - unfold layer_shows. rewrite <- puts_darkened. unfold puts. cbn [map fold_left]. unfold put. cbn [item_shape drawn_shape fst snd dark block]. intros [[]|X]. apply (block_shape_middle true 2) in X; lra.
  - rewrite E. unfold put. cbn [fst snd dark block negb andb]. rewrite D. intros [_ N]. apply N. intros _ [_ ?]. discriminate.
Qed.
(** A clear block with a hole on a dark one *)
Lemma clear_hole : exists img, render_layer fill (C false) [Single (block true 0); Single (block false 2)] = Ok img /\
  layer_shows fill [Single (block true 0); Single (block false 2)] middle /\ ~ img (pixel 1 ten false middle).
Proof.
  destruct (two_blocks false true 0 false 2) as (img & R & E); [lra|lra|]. exists img. split; [exact R|]. split.
  - rewrite shows_two. unfold put. cbn [drawn_shape fst snd dark block]. split.
    + right. apply (block_shape_middle true 0); [lra|reflexivity].
    + intro X. apply (block_shape_middle false 2) in X; lra.
  - rewrite E. unfold put. cbn. intros [_ N]. apply N. intros _ [? _]. discriminate.
Qed.
(** The top of a block which does not end at a whole pixel *)
Definition low : drawn := mkDrawn true ((3, 7), (3, 7 + 1 / 2)) (PRect (5, 5 + 1 / 4) 4 (4 + 1 / 2) 0 0 0 0).
Definition edge : pt := (5, 7 + 1 / 4).
Lemma low_shape p : prim_shape fill (what low) p <-> turned (5, 5 + 1 / 4) 0 (oblong 4 (4 + 1 / 2)) p.
Proof. cbn [prim_shape what low]. unfold with_holes, without, round_hole, rect_hole. split; [now intros [[? _] _]|]. intro X. split; [split; [exact X|]|]; intros [? _]; lra. Qed.
Lemma low_renderable : renderable fill low.
Proof.
  split; [|split; [cbn; lra|now left]]. intros p P. apply low_shape, turned_zero in P. unfold oblong in P. unfold inside. cbn in *. lra.
Qed.
Lemma low_top : exists img, render_layer fill (C false) [Single low] = Ok img /\ layer_shows fill [Single low] edge /\ ~ img (pixel 1 ten false edge).
Proof.
  unfold render_layer. cbn [flat_map parts app render_all]. unfold render. cbn [what low mask bind]. eexists. split; [reflexivity|]. split.
  - unfold layer_shows. rewrite <- puts_darkened. unfold puts. cbn [map fold_left]. unfold put. cbn [item_shape drawn_shape fst snd dark low]. right. apply low_shape, turned_zero. unfold oblong, edge. cbn. lra.
  - cbn [dark bbox low]. unfold draw, layer_operator. cbn [invert set_bounds negb andb]. fold (set_bounds 1 ten false false). intros [[? _]|M]; [discriminate|].
    destruct (ten_fits false) as (S & Eo & Es). assert (I : inside ten edge) by (unfold inside, ten, edge; cbn; lra).
    pose proof (masked_at (C false) ten ((3, 7), (3, 7 + 1 / 2)) (drawing ((Over, rectangle_path (C false) (5, 5 + 1 / 4) 4 (4 + 1 / 2) 0) :: holes fill (C false) (5, 5 + 1 / 4) 0 0 0 0 (hole_operator (C false) true) (hole_operator (C false) true))) edge S I Eo Es) as Q.
    apply Q in M as [_ Cl]. revert Cl. unfold clip, c_rectangle, origin_px, scale_point. cbn [fst snd scale origin set_bounds ten edge]. replace (0 * 1) with 0 by ring.
    rewrite (ceil_int 0), (floor_int 0). replace (1 * 3 - 0) with 3 by ring. rewrite (floor_int 3). rewrite (floor_is 7 (1 * (7 + 1 / 2) - 0)) by lra. rewrite (Rabs_right (7 - 3)) by lra. lra.
Qed.
(** A rectangle turned by a quarter *)
Definition turned_block : drawn := mkDrawn true (rect_box (5, 5) 90 4 2) (PRect (5, 5) 4 2 90 0 0 0).
Definition upper : pt := (4 + 1 / 2, 5 + 1 / 2).
Lemma turned_shape p : prim_shape fill (what turned_block) p <-> turned (5, 5) 90 (oblong 4 2) p.
Proof. cbn [prim_shape what turned_block]. unfold with_holes, without, round_hole, rect_hole. split; [now intros [[? _] _]|]. intro X. split; [split; [exact X|]|]; intros [? _]; lra. Qed.
Lemma ninety : cos (90 * PI / 180) = 0 /\ sin (90 * PI / 180) = 1.
Proof. replace (90 * PI / 180) with (PI / 2) by field. split; [apply cos_PI2|apply sin_PI2]. Qed.
Lemma turned_refuted : exists img, render_layer fill (C false) [Single turned_block] = Ok img /\ encloses (bbox turned_block) (prim_shape fill (what turned_block)) /\
  below_top fill 1 [Single turned_block] upper /\ layer_shows fill [Single turned_block] upper /\ ~ img (pixel 1 ten false upper).
Proof.
  unfold render_layer. cbn [flat_map parts app render_all]. unfold render. cbn [what turned_block mask bind]. eexists. split; [reflexivity|]. destruct ninety as [C9 S9].
  assert (B : rect_box (5, 5) 90 4 2 = ((4, 6), (3, 7))). { unfold rect_box, BoxModel.rect_box, around, aa_width, aa_height, half. rewrite radians_eq, C9, S9. cbn [fst snd]. apply box_eq; lra. }
  split; [intros p P; apply turned_shape in P; apply (rect_quarter (5, 5) 90 4 2); try lra; exact P|]. split; [|split].
  - intros d [<-|[]] _. cbn [bbox turned_block]. rewrite B. cbn. lra.
  - unfold layer_shows. rewrite <- puts_darkened. unfold puts. cbn [map fold_left]. unfold put. cbn [item_shape drawn_shape fst snd dark turned_block]. right. apply turned_shape. unfold turned. rewrite C9, S9.
    exists (1 / 2, 1 / 2). split; [unfold oblong; cbn; lra|]. unfold upper. cbn [fst snd]. apply pt_eq; lra.
  - cbn [dark bbox turned_block]. unfold draw, layer_operator. cbn [invert set_bounds negb andb]. fold (set_bounds 1 ten false false). intros [[? _]|M]; [discriminate|].
    destruct (ten_fits false) as (S & Eo & Es). assert (I : inside ten upper) by (unfold inside, ten, upper; cbn; lra).
    pose proof (masked_at (C false) ten (rect_box (5, 5) 90 4 2) (drawing ((Over, rectangle_path (C false) (5, 5) 4 2 90) :: holes fill (C false) (5, 5) 90 0 0 0 (hole_operator (C false) true) (hole_operator (C false) true))) upper S I Eo Es) as Q.
    apply Q in M as [M _]. unfold holes in M. destruct (Rlt_dec 0 0) as [|_]; [lra|]. cbn [app] in M. apply (proj1 (one_over _ _)) in M. revert M.
    unfold rectangle_path, c_rectangle, scale_point, magnify, lower_left, upper. rewrite radians_eq, C9, S9. cbn [fst snd scale set_bounds]. rewrite !Rabs_right by lra. intros [_ [_ A]]. lra.
Qed.
End Witness.
