(** Images of moved and of converted files: examples. *)
From Coq Require Import Lra Lia.
From Verif Require Import PyBase QcLib GeomModel GeomSpec GeomProofs HullSpec CairoModel CairoSpec CairoProofs CairoLayer CairoMore CairoScale MacroGeomModel MacroGeomSpec MacroGeomProofs ShowModel ShowSpec ShowProofs ShowFile ShowMacro ShowExamples CamShowModel CamShowSpec CamShowProofs CamShowExamples SimilarSpec SimilarProofs SimilarFile.
From Verif Require Import GerberText HeapModel HeapSpec.
From Verif Require GerberEval GerberEvalSpec GerberEvalProofs GerberConv GerberConvSpec ScaleSpec.
Import ListNotations GerberEvalSpec.
Open Scope R_scope.
Open Scope list_scope.

(** ** The filling rule moves along *)
Lemma moving_sims d l q : moving (sims 1 d l) q <-> exists q', moving l q' /\ q = similar 1 d q'.
Proof.
  assert (St : forall f : curve, still (fun t => similar 1 d (f t)) <-> still f).
  { intro f. unfold still. split; intros H t; specialize (H t); [apply sim_inj in H; [exact H|lra]|now rewrite H]. }
  split.
  - intros (g & t & J & Ns & Ht & ->). unfold sims in J. apply in_map_iff in J as (f & <- & J). exists (f t). split; [|reflexivity]. exists f, t. split; [exact J|]. split; [now rewrite <- St|auto].
  - intros (q' & (f & t & J & Ns & Ht & ->) & ->). exists (fun t => similar 1 d (f t)), t. split; [unfold sims; apply in_map_iff; eauto|]. split; [now rewrite St|auto].
Qed.
Lemma hulled_moves : moves_along hulled.
Proof.
  intros d l p. change (hulled (sims 1 d l) (similar 1 d p) <-> hulled l p).
  assert (A : forall w q, along w (similar 1 d q) = along w q + along w d) by (intros w q; unfold along, similar; cbn [fst snd]; ring).
  split; intros X w; destruct (X w) as (q & M & L).
  - apply moving_sims in M as (q' & M & ->). exists q'. split; [exact M|]. rewrite !A in L. lra.
  - exists (similar 1 d q). split; [apply moving_sims; eauto|]. rewrite !A. lra.
Qed.
Lemma fc0_equivariant : GerberConvSpec.equivariant fc0.
Proof. intros dir a b o d. unfold fc0, GerberConvSpec.plus. cbn. do 2 f_equal; ring. Qed.
Lemma fc0_proportional : ScaleSpec.proportional fc0.
Proof. intros k d a b o _. unfold fc0, ScaleSpec.times. cbn. do 2 f_equal; ring. Qed.

(** ** Two dots *)
Definition dots_file : list stmt := [SMO true Inch; SAD 10 (T "C") [[zq 2]]; SAp 10 false; go 0 0 "D02"; go 0 0 "D03"; go 10 10 "D03"].
Lemma dots_file_image : image fc0 [] dots_file = Some dots.
Proof. vm_compute. reflexivity. Qed.
Lemma dots_file_positioned : GerberConvSpec.positioned dots_file.
Proof. exists (firstn 3 dots_file). do 4 eexists. split; [reflexivity|]. repeat constructor. Qed.
Lemma dots_file_no_offsets : Forall GerberConvSpec.no_offsets dots_file.
Proof. repeat constructor. Qed.
Lemma dots_file_opens : exists f, GerberConv.open_file fc0 dots_file = Ok f.
Proof. destruct (GerberConv.open_file fc0 dots_file) as [f|] eqn:E; [eauto|vm_compute in E; discriminate]. Qed.
Lemma dots_file_converts : exists f f', GerberConv.open_file fc0 dots_file = Ok f /\ GerberConv.file_to Metric f = Ok f'.
Proof.
  destruct dots_file_opens as (f & E). assert (X : (do f <- GerberConv.open_file fc0 dots_file; do _ <- GerberConv.file_to Metric f; Ok true) = Ok true) by (vm_compute; reflexivity).
  rewrite E in X. cbn [bind] in X. destruct (GerberConv.file_to Metric f) as [f'|] eqn:F; [|discriminate X]. eauto.
Qed.
Lemma dots_file_declared : ScaleSpec.declared Inch dots_file.
Proof. split; [repeat constructor; discriminate|]. exists [], (tl dots_file). split; [reflexivity|constructor]. Qed.
Lemma dots_file_plain : Forall ScaleSpec.plain_apertures dots_file.
Proof. repeat (constructor; [cbn; auto|]). constructor. Qed.

(** ** The upper edge *)
Definition tall_file : list stmt := [SMO true Inch; SAD 10 (T "R") [[zq 2; zq 4]]; SAp 10 false; go 0 2 "D02"; go 0 2 "D03"].
Lemma tall_file_image : image fc0 [] tall_file = Some tall_marks.
Proof. vm_compute. reflexivity. Qed.
Lemma tall_file_positioned : GerberConvSpec.positioned tall_file.
Proof. exists (firstn 3 tall_file). do 4 eexists. split; [reflexivity|]. repeat constructor. Qed.
Lemma tall_file_no_offsets : Forall GerberConvSpec.no_offsets tall_file.
Proof. repeat constructor. Qed.
Lemma tall_file_opens : exists f, GerberConv.open_file fc0 tall_file = Ok f.
Proof. destruct (GerberConv.open_file fc0 tall_file) as [f|] eqn:E; [eauto|vm_compute in E; discriminate]. Qed.
(** A file which shows one rectangle: its image. *)
Lemma one_rect fill fc s l f w h x y b img p : sensible fill -> 0 < s -> GerberConv.open_file fc l = Ok f -> image fc [] l = Some [ShowExamples.dot (rect w h) x y Dark] -> (0 < w)%Z -> (0 < h)%Z ->
  b = ((IZR x - IZR w / 2, IZR x + IZR w / 2), (IZR y - IZR h / 2, IZR y + IZR h / 2)) -> within 1000000 b -> inside b p ->
  render_whole fill fc s false l = Ok img -> (img (pixel s b false p) <-> clip (set_bounds s b false false) b (s * fst p, s * snd p - s * fst (snd b))).
Proof.
  intros Se S O Im W H Eb Wi I0 R. apply IZR_lt in W, H. destruct (opened fc l f O) as (st & l' & E).
  assert (F : Forall fair [ShowExamples.dot (rect w h) x y Dark]).
  { apply Forall_cons; [|apply Forall_nil]. split; [discriminate|]. cbn [rect fair_flash ShowExamples.dot GerberEval.o_shape]. rewrite !real_zq. split; [lra|]. split; [lra|]. now left. }
  assert (Ex : forall q, extent (ShowExamples.dot (rect w h) x y Dark) q <-> inside b q).
  { intro q. subst b. cbn [extent ShowExamples.dot GerberEval.o_pos GerberEval.o_shape flash_extent rect]. unfold real_pt, MacroGeomSpec.moved, oblong, inside. cbn [fst snd]. rewrite !real_zq. lra. }
  assert (N : Forall (fun m => exists q, extent m q) [ShowExamples.dot (rect w h) x y Dark]) by (apply Forall_cons; [exists p; now apply Ex|apply Forall_nil]).
  assert (B : file_box [ShowExamples.dot (rect w h) x y Dark] b).
  { split; [intros q (m & [<-|[]] & X); now apply Ex|]. unfold touches.
    assert (X : forall q, inside b q -> exists m, In m [ShowExamples.dot (rect w h) x y Dark] /\ extent m q) by (intros q Q; eexists; split; [now left|now apply Ex]).
    subst b. unfold inside in X. cbn [fst snd] in *. split; [exists (IZR x - IZR w / 2, IZR y)|split; [exists (IZR x + IZR w / 2, IZR y)|split; [exists (IZR x, IZR y - IZR h / 2)|exists (IZR x, IZR y + IZR h / 2)]]]; (split; [apply X; cbn [fst snd]; lra|reflexivity]). }
  rewrite (whole_unfold fill fc s false l st l' _ b Se E Im F N B Wi) in R.
  destruct (proj2 (GerberEvalProofs.evaluate_image fc l [] GerberEval.g_init st l' (GerberEvalProofs.inv_init fc) E)) as (ms' & Im' & Sh). rewrite Im in Im'. injection Im' as <-.
  change (shown GerberEval.g_init ++ map Some [ShowExamples.dot (rect w h) x y Dark]) with [Some (ShowExamples.dot (rect w h) x y Dark)] in Sh. unfold shown in Sh.
  destruct (GerberEval.g_prims st) as [|pr [|p' ps]]; try discriminate. cbn [map] in Sh. injection Sh as Sh. unfold render_file in R. cbn [mapM] in R. rewrite (view_look _ _ _ Sh I) in R. cbn [look ShowExamples.dot] in R.
  unfold view_flash in R. cbn [GerberEval.o_pos GerberEval.o_shape GerberEval.o_pol rect bind] in R. unfold render_layer in R. cbn [flat_map CairoModel.parts app render_all] in R. unfold render in R.
  destruct (mask_ok fill (set_bounds s b false false) true (PRect (real_pt (zq x, zq y)) (real (zq w)) (real (zq h)) 0 (real 0%Qc) (real 0%Qc) (real 0%Qc)) (s_filling _ Se) S) as (m & M & Dr).
  { cbn [simple]. rewrite !real_zq. lra. }
  { cbn [clear_holes]. auto. }
  cbn [dark what bbox is_dark] in R.  rewrite M in R. cbn [bind] in R. injection R as <-. unfold draw, layer_operator. cbn [set_bounds invert negb andb].
  assert (Bx : rect_box (real_pt (zq x, zq y)) 0 (real (zq w)) (real (zq h)) = b) by (rewrite rect_box_0; subst b; unfold real_pt; cbn [fst snd]; rewrite !real_zq; f_equal; f_equal; ring). rewrite Bx.
  assert (Sz : size (set_bounds s b false false) = (snd (fst b) - fst (fst b), snd (snd b) - fst (snd b))) by (subst b; cbn [set_bounds size fst snd]; rewrite !Rabs_right by lra; reflexivity).
  pose proof (masked_at (set_bounds s b false false) b b (drawing m) p S I0 eq_refl Sz) as Ma. cbn [set_bounds scale mirror] in Ma. fold (set_bounds s b false false) in Ma.
  unfold origin_px, scale_point in Ma. cbn [set_bounds CairoModel.origin scale fst snd] in Ma.
  transitivity (masked (set_bounds s b false false) b (drawing m) (pixel s b false p)); [split; [intros [[X _]|X]; [discriminate X|exact X]|auto]|].
  rewrite Ma. replace (fst (snd b) * s) with (s * fst (snd b)) by ring. split; [intros [_ X]; exact X|]. intro X. split; [|exact X]. apply (Dr p). cbn [prim_shape].
  unfold with_holes, without, round_hole, rect_hole. rewrite real_zero. split; [split; [|intros [Y _]; lra]|intros [Y _]; lra]. apply turned_zero. unfold oblong, real_pt. cbn [fst snd]. rewrite !real_zq.
  subst b. unfold inside in I0. cbn [fst snd] in I0. lra.
Qed.

(** Moved by one unit, the rectangle is cut elsewhere. *)
Definition higher_file : list stmt := [SMO true Inch; SAD 10 (T "R") [[zq 2; zq 4]]; SAp 10 false; go 0 3 "D02"; go 0 3 "D03"].
Lemma higher_image : image fc0 [] higher_file = Some [ShowExamples.dot (rect 2 4) 0 3 Dark].
Proof. vm_compute. reflexivity. Qed.
Lemma higher_is f f' : GerberConv.open_file fc0 tall_file = Ok f -> GerberConv.file_offset (zq 0, zq 1) f = Ok f' -> map fst (GerberConv.f_stmts f') = higher_file.
Proof.
  intros O Of. assert (X : (do f <- GerberConv.open_file fc0 tall_file; do f' <- GerberConv.file_offset (zq 0, zq 1) f; Ok (map fst (GerberConv.f_stmts f'))) = Ok higher_file) by (vm_compute; reflexivity).
  rewrite O in X. cbn [bind] in X. rewrite Of in X. cbn [bind] in X. now apply ok_inj in X.
Qed.
Lemma higher_opens : exists f, GerberConv.open_file fc0 higher_file = Ok f.
Proof. destruct (GerberConv.open_file fc0 higher_file) as [f|] eqn:E; [eauto|vm_compute in E; discriminate]. Qed.
Lemma tall_lower fill img : sensible fill -> render_whole fill fc0 (5 / 8) false tall_file = Ok img -> ~ img (pixel (5 / 8) ((-1, 1), (0, 4)) false (0, 39 / 10)).
Proof.
  intros Se R X. destruct tall_file_opens as (f & O).
  assert (Wi : within 1000000 ((IZR 0 - IZR 2 / 2, IZR 0 + IZR 2 / 2), (IZR 2 - IZR 4 / 2, IZR 2 + IZR 4 / 2))) by (unfold within; cbn [fst snd]; lra).
  assert (In0 : inside ((IZR 0 - IZR 2 / 2, IZR 0 + IZR 2 / 2), (IZR 2 - IZR 4 / 2, IZR 2 + IZR 4 / 2)) (0, 39 / 10)) by (unfold inside; cbn [fst snd]; lra).
  pose proof (one_rect fill fc0 (5 / 8) tall_file f 2 4 0 2 _ img (0, 39 / 10) Se ltac:(lra) O tall_file_image eq_refl eq_refl eq_refl Wi In0 R) as H.
  replace (IZR 0 - IZR 2 / 2) with (-1) in H by lra. replace (IZR 0 + IZR 2 / 2) with 1 in H by lra. replace (IZR 2 - IZR 4 / 2) with 0 in H by lra. replace (IZR 2 + IZR 4 / 2) with 4 in H by lra.
  apply H in X. clear H. unfold clip, c_rectangle, origin_px, scale_point in X. cbn zeta in X. cbn [set_bounds scale CairoModel.origin fst snd] in X. destruct X as [_ [_ Y]].
  assert (F1 : floor (0 * (5 / 8)) = 0) by (apply (floor_is 0); lra). assert (F2 : ceil (0 * (5 / 8)) = 0) by (unfold ceil; rewrite (floor_is 0); lra).
  rewrite F1, F2 in Y. rewrite (floor_is 0 (5 / 8 * _ - 0)), (floor_is 2) in Y by lra. rewrite Rabs_right in Y by lra. lra.
Qed.
Lemma higher_kept fill img : sensible fill -> render_whole fill fc0 (5 / 8) false higher_file = Ok img -> img (pixel (5 / 8) ((-1, 1), (0, 4)) false (0, 39 / 10)).
Proof.
  intros Se R. destruct higher_opens as (f & O).
  assert (Wi : within 1000000 ((IZR 0 - IZR 2 / 2, IZR 0 + IZR 2 / 2), (IZR 3 - IZR 4 / 2, IZR 3 + IZR 4 / 2))) by (unfold within; cbn [fst snd]; lra).
  assert (In0 : inside ((IZR 0 - IZR 2 / 2, IZR 0 + IZR 2 / 2), (IZR 3 - IZR 4 / 2, IZR 3 + IZR 4 / 2)) (0, 49 / 10)) by (unfold inside; cbn [fst snd]; lra).
  pose proof (one_rect fill fc0 (5 / 8) higher_file f 2 4 0 3 _ img (0, 49 / 10) Se ltac:(lra) O higher_image eq_refl eq_refl eq_refl Wi In0 R) as H.
  replace (IZR 0 - IZR 2 / 2) with (-1) in H by lra. replace (IZR 0 + IZR 2 / 2) with 1 in H by lra. replace (IZR 3 - IZR 4 / 2) with 1 in H by lra. replace (IZR 3 + IZR 4 / 2) with 5 in H by lra.
  replace (pixel (5 / 8) ((-1, 1), (0, 4)) false (0, 39 / 10)) with (pixel (5 / 8) (-1, 1, (1, 5)) false (0, 49 / 10)) by (unfold pixel; cbn [fst snd]; f_equal; lra).
  apply H. clear H. unfold clip, c_rectangle, origin_px, scale_point. cbn zeta. cbn [set_bounds scale CairoModel.origin fst snd].
  assert (F1 : floor (1 * (5 / 8)) = 0) by (apply (floor_is 0); lra). assert (F2 : ceil (1 * (5 / 8)) = 1) by (unfold ceil; rewrite (floor_is (-1)); lra).
  rewrite F1, F2. rewrite (floor_is (-1) (5 / 8 * -1)), (floor_is (-1) (5 / 8 * 1 - 1)), (floor_is 3) by lra.
  assert (F3 : ceil (5 / 8 * 1) = 1) by (unfold ceil; rewrite (floor_is (-1)); lra). rewrite F3, !Rabs_right by lra. lra.
Qed.

(** ** The implicit origin *)
Definition row_file : list stmt := [SMO true Inch; SAD 10 (T "R") [[zq 2; zq 2]]; SAp 10 false; SCoord None (Some (zq 0)) None None None (Some (T "D02")); SCoord None (Some (zq 0)) None None None (Some (T "D03")); go 10 0 "D03"].
Definition row_marks (y : Z) : list mark := [ShowExamples.dot (rect 2 2) 0 0 Dark; ShowExamples.dot (rect 2 2) 10 y Dark].
Definition moved_row : list stmt := [SMO true Inch; SAD 10 (T "R") [[zq 2; zq 2]]; SAp 10 false; SCoord None (Some (zq 0)) None None None (Some (T "D02")); SCoord None (Some (zq 0)) None None None (Some (T "D03")); go 10 5 "D03"].
Lemma row_image : image fc0 [] row_file = Some (row_marks 0).
Proof. vm_compute. reflexivity. Qed.
Lemma moved_row_image : image fc0 [] moved_row = Some (row_marks 5).
Proof. vm_compute. reflexivity. Qed.
Lemma row_opens : exists f, GerberConv.open_file fc0 row_file = Ok f.
Proof. destruct (GerberConv.open_file fc0 row_file) as [f|] eqn:E; [eauto|vm_compute in E; discriminate]. Qed.
Lemma moved_row_opens : exists f, GerberConv.open_file fc0 moved_row = Ok f.
Proof. destruct (GerberConv.open_file fc0 moved_row) as [f|] eqn:E; [eauto|vm_compute in E; discriminate]. Qed.
Lemma row_moves f : GerberConv.open_file fc0 row_file = Ok f -> exists f', GerberConv.file_offset (zq 0, zq 5) f = Ok f' /\ map fst (GerberConv.f_stmts f') = moved_row.
Proof.
  intros O. assert (X : (do f <- GerberConv.open_file fc0 row_file; do f' <- GerberConv.file_offset (zq 0, zq 5) f; Ok (map fst (GerberConv.f_stmts f'))) = Ok moved_row) by (vm_compute; reflexivity).
  rewrite O in X. cbn [bind] in X. destruct (GerberConv.file_offset (zq 0, zq 5) f) as [f'|]; [|discriminate X]. cbn [bind] in X. apply ok_inj in X. eauto.
Qed.
Lemma square_extent x y q : extent (ShowExamples.dot (rect 2 2) x y Dark) q <-> IZR x - 1 <= fst q <= IZR x + 1 /\ IZR y - 1 <= snd q <= IZR y + 1.
Proof.
  cbn [extent ShowExamples.dot GerberEval.o_pos GerberEval.o_shape flash_extent rect]. unfold real_pt, MacroGeomSpec.moved, oblong. cbn [fst snd]. rewrite !real_zq. lra.
Qed.
Lemma row_fair y : Forall fair (row_marks y).
Proof. repeat apply Forall_cons; try apply Forall_nil; (split; [discriminate|]); cbn [rect fair_flash ShowExamples.dot GerberEval.o_shape]; rewrite !real_zq; (split; [lra|]); (split; [lra|]); now left. Qed.
Lemma row_extents y : Forall (fun m => exists q, extent m q) (row_marks y).
Proof. repeat apply Forall_cons; try apply Forall_nil; [exists (0, 0)|exists (10, IZR y)]; apply square_extent; cbn [fst snd]; lra. Qed.
Lemma row_box y : (0 <= y)%Z -> file_box (row_marks y) ((-1, 11), (-1, IZR y + 1)).
Proof.
  intro Y. apply IZR_le in Y. split.
  - intros p (m & [<-|[<-|[]]] & X); apply square_extent in X; unfold inside; cbn [fst snd]; lra.
  - unfold touches. cbn [fst snd]. split; [exists (-1, 0)|split; [exists (11, IZR y)|split; [exists (0, -1)|exists (10, IZR y + 1)]]]; (split; [|reflexivity]).
    + eexists. split; [now left|]. apply square_extent. cbn [fst snd]. lra.
    + eexists. split; [right; now left|]. apply square_extent. cbn [fst snd]. lra.
    + eexists. split; [now left|]. apply square_extent. cbn [fst snd]. lra.
    + eexists. split; [right; now left|]. apply square_extent. cbn [fst snd]. lra.
Qed.
Lemma row_size s : 0 < s -> whole_size fc0 s row_file = Ok (s * (11 - -1), s * (0 + 1 - -1)).
Proof.
  intro S. destruct row_opens as (f & O). destruct (opened _ _ _ O) as (st & l' & E).
  exact (size_opened hulled fc0 s row_file st l' _ _ hulled_sensible S E row_image (row_fair 0) (row_extents 0) (row_box 0 ltac:(lia)) ltac:(unfold within; cbn [fst snd]; lra)).
Qed.
Lemma moved_row_size s : 0 < s -> whole_size fc0 s moved_row = Ok (s * (11 - -1), s * (5 + 1 - -1)).
Proof.
  intro S. destruct moved_row_opens as (f & O). destruct (opened _ _ _ O) as (st & l' & E).
  exact (size_opened hulled fc0 s moved_row st l' _ _ hulled_sensible S E moved_row_image (row_fair 5) (row_extents 5) (row_box 5 ltac:(lia)) ltac:(unfold within; cbn [fst snd]; lra)).
Qed.
