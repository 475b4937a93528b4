(** Images of whole files: examples, and drill programs. *)
From Coq Require Import Lra Lia.
From Verif Require Import PyBase QcLib GeomModel GeomSpec GeomProofs CairoModel CairoSpec CairoProofs CairoLayer CairoMore CairoScale MacroGeomModel MacroGeomSpec MacroGeomProofs ShowModel ShowSpec ShowProofs ShowFile ShowMacro ShowExamples CamShowModel CamShowSpec CamShowProofs CamShowDrill.
From Verif Require Import GerberText.
From Verif Require GerberEval GerberEvalSpec GerberEvalProofs ExcellonModel ExcellonFile ExcellonSpec ExcellonMore ExcellonRun.
Import ListNotations GerberEvalSpec.
Open Scope R_scope.
Open Scope list_scope.

(** ** Two dots *)
Lemma dot_extent d x y p q : extent (ShowExamples.dot (circle d) x y p) q <-> disc (IZR x, IZR y) (IZR d / 2) q.
Proof. cbn [extent ShowExamples.dot GerberEval.o_pos GerberEval.o_shape flash_extent circle]. unfold real_pt. cbn [fst snd]. rewrite !real_zq. reflexivity. Qed.
Definition dots : list mark := [ShowExamples.dot (circle 2) 0 0 Dark; ShowExamples.dot (circle 2) 10 10 Dark].
Lemma dots_extent : Forall (fun m => exists q, extent m q) dots.
Proof. repeat apply Forall_cons; try apply Forall_nil; [exists (0, 0)|exists (10, 10)]; apply dot_extent; unfold disc, dist2; cbn [fst snd]; lra. Qed.
Lemma dots_box : file_box dots ((-1, 11), (-1, 11)).
Proof.
  split.
  - intros p (m & [<-|[<-|[]]] & X); apply dot_extent in X; apply (proj1 (disc_bounds _ (2 / 2) ltac:(lra))) in X; unfold inside in *; cbn [fst snd] in *; lra.
  - unfold touches. cbn [fst snd]. split; [exists (-1, 0)|split; [exists (11, 10)|split; [exists (0, -1)|exists (10, 11)]]]; (split; [|reflexivity]).
    + exists (ShowExamples.dot (circle 2) 0 0 Dark). split; [now left|]. apply dot_extent. unfold disc, dist2. cbn [fst snd]. lra.
    + exists (ShowExamples.dot (circle 2) 10 10 Dark). split; [right; now left|]. apply dot_extent. unfold disc, dist2. cbn [fst snd]. lra.
    + exists (ShowExamples.dot (circle 2) 0 0 Dark). split; [now left|]. apply dot_extent. unfold disc, dist2. cbn [fst snd]. lra.
    + exists (ShowExamples.dot (circle 2) 10 10 Dark). split; [right; now left|]. apply dot_extent. unfold disc, dist2. cbn [fst snd]. lra.
Qed.
Lemma dots_within : within 1000000 ((-1, 11), (-1, 11)).
Proof. unfold within. cbn [fst snd]. lra. Qed.
Lemma dots_solid : Forall solid_mark dots.
Proof. repeat apply Forall_cons; try apply Forall_nil; (split; [reflexivity|]); cbn; rewrite ?real_zero; unfold no_hole; rewrite ?real_zero; lra. Qed.

(** ** A file with nothing in it *)
Definition moves : list stmt := [SMO true Inch; SAD 10 (T "C") [[zq 2]]; SAp 10 false; go 0 0 "D02"; go 10 10 "D02"].
Lemma moves_ok : definitions_ok [] moves.
Proof. known_definitions. Qed.
Lemma moves_image : image fc0 [] moves = Some [].
Proof. vm_compute. reflexivity. Qed.

(** ** The upper edge *)
Definition tall : list stmt := [SMO true Inch; SAD 10 (T "R") [[zq 2; zq 4]]; SAp 10 false; go 0 2 "D03"].
Definition tall_marks : list mark := [ShowExamples.dot (rect 2 4) 0 2 Dark].
Lemma tall_image : image fc0 [] tall = Some tall_marks.
Proof. vm_compute. reflexivity. Qed.
Lemma tall_ok : definitions_ok [] tall.
Proof. known_definitions. Qed.
Lemma tall_fair : Forall fair tall_marks.
Proof. apply Forall_cons; [|apply Forall_nil]. split; [discriminate|]. cbn [rect fair_flash ShowExamples.dot GerberEval.o_shape]. rewrite !real_zq. split; [lra|]. split; [lra|]. now left. Qed.
Lemma tall_extent q : extent (ShowExamples.dot (rect 2 4) 0 2 Dark) q <-> -1 <= fst q <= 1 /\ 0 <= snd q <= 4.
Proof.
  cbn [extent ShowExamples.dot GerberEval.o_pos GerberEval.o_shape flash_extent rect]. unfold real_pt, MacroGeomSpec.moved, oblong. cbn [fst snd]. rewrite !real_zq. lra.
Qed.
Lemma tall_covers fill q : -1 <= fst q <= 1 -> 0 <= snd q <= 4 -> covers fill (ShowExamples.dot (rect 2 4) 0 2 Dark) q.
Proof.
  intros X Y. cbn [covers ShowExamples.dot GerberEval.o_pos GerberEval.o_shape flashed rect]. unfold real_pt. cbn [fst snd]. rewrite !real_zq, real_zero.
  unfold with_holes, without, round_hole, rect_hole. split; [split; [unfold MacroGeomSpec.moved, oblong; cbn [fst snd]; lra|]|]; intros [? _]; lra.
Qed.
Lemma tall_extents : Forall (fun m => exists q, extent m q) tall_marks.
Proof. apply Forall_cons; [|apply Forall_nil]. exists (0, 0). apply tall_extent. cbn [fst snd]. lra. Qed.
Lemma tall_box : file_box tall_marks ((-1, 1), (0, 4)).
Proof.
  split; [intros p (m & [<-|[]] & X); apply tall_extent in X; exact X|].
  unfold touches. cbn [fst snd]. repeat split; [exists (-1, 0)|exists (1, 0)|exists (0, 0)|exists (0, 4)]; (split; [|reflexivity]);
      eexists; (split; [left; reflexivity|apply tall_extent; cbn [fst snd]; lra]).
Qed.
Lemma tall_within : within 1000000 ((-1, 1), (0, 4)).
Proof. unfold within. cbn [fst snd]. lra. Qed.
Lemma tall_shown fill : shows fill tall_marks (0, 39 / 10).
Proof. exists [], (ShowExamples.dot (rect 2 4) 0 2 Dark), []. split; [reflexivity|]. split; [reflexivity|]. split; [apply tall_covers; cbn [fst snd]; lra|intros m []]. Qed.

Lemma clip_only fill c l : invert c = false -> forall layer img : shape, render_all fill c l layer = Ok img -> forall q, img q -> layer q \/ exists d v, In d l /\ clip c (bbox d) v /\ matrix c v = q.
Proof.
  intro I0. induction l as [|d l IH]; intros layer img H q Q; [injection H as <-; auto|]. cbn [render_all] in H. unfold render in H. destruct (mask _ _ _ _) as [m|]; [|discriminate]. cbn [bind] in H.
  destruct (IH _ _ H q Q) as [D|(d' & v & J & Cl & E)]; [|right; exists d', v; split; [now right|auto]]. unfold draw in D. destruct (layer_operator c (dark d)); [destruct D as [D|D]; [auto|]|destruct D; auto].
  destruct D as (_ & v & _ & _ & Cl & E). right. do 2 eexists. split; [now left|]. split; [exact Cl|exact E].
Qed.
(** At five eighths of a pixel per unit the rectangle is two and a half pixels high, and the clipping leaves two of them. *)
Lemma tall_cut fill img : sensible fill -> render_whole fill fc0 (5 / 8) false tall = Ok img -> ~ img (pixel (5 / 8) ((-1, 1), (0, 4)) false (0, 39 / 10)).
Proof.
  intros Se R X. destruct (evaluates fc0 tall tall_marks tall_ok tall_image) as (st & l' & E).
  rewrite (whole_unfold fill fc0 (5 / 8) false tall st l' tall_marks _ Se E tall_image tall_fair tall_extents tall_box tall_within) in R.
  destruct (proj2 (GerberEvalProofs.evaluate_image fc0 tall [] GerberEval.g_init st l' (GerberEvalProofs.inv_init fc0) E)) as (ms' & Im' & Sh). rewrite tall_image in Im'. injection Im' as <-.
  change (shown GerberEval.g_init ++ map Some tall_marks) with [Some (ShowExamples.dot (rect 2 4) 0 2 Dark)] in Sh. unfold shown in Sh.
  destruct (GerberEval.g_prims st) as [|p [|p' ps]]; try discriminate. cbn [map] in Sh. injection Sh as Sh. unfold render_file in R. cbn [mapM] in R. rewrite (view_look _ _ _ Sh I) in R. cbn [look ShowExamples.dot] in R.
  unfold view_flash in R. cbn [GerberEval.o_pos GerberEval.o_shape GerberEval.o_pol rect bind] in R. unfold render_layer in R. cbn [flat_map parts app] in R.
  destruct (clip_only fill (set_bounds (5 / 8) ((-1, 1), (0, 4)) false false) _ eq_refl _ _ R _ X) as [[L _]|(d & v & [<-|[]] & Cl & M)]; [discriminate L|]. cbn [bbox] in Cl. clear - Cl M.
  unfold clip, c_rectangle, origin_px, scale_point in Cl. cbn zeta in Cl. cbn [set_bounds scale CairoModel.origin fst snd] in Cl. destruct Cl as [_ [_ Y]].
  unfold matrix, pixel, size_px, scale_point in M. cbn [set_bounds mirror scale size fst snd] in M. injection M as _ M. rewrite Rabs_right in M by lra.
  rewrite rect_box_0 in Y. unfold real_pt in Y. cbn [fst snd] in Y. rewrite !real_zq in Y.
  assert (F1 : floor (0 * (5 / 8)) = 0) by (apply (floor_is 0); lra). assert (F2 : ceil (0 * (5 / 8)) = 0) by (unfold ceil; rewrite (floor_is 0); lra).
  rewrite F1, F2 in Y. rewrite (floor_is 0 (5 / 8 * _ - 0)), (floor_is 2) in Y by lra. rewrite Rabs_right in Y by lra. lra.
Qed.

(** ** Drill programs *)
Lemma program_drills u defs L f : map (ExcellonSpec.hole_view (ExcellonModel.xf_store f)) (ExcellonModel.xf_hits f) = map (fun h => Some (fst h, ExcellonSpec.diameter defs u (fst h), snd h)) L ->
  (forall h, In h L -> exists d, ExcellonSpec.diameter defs u (fst h) = Some d /\ 0 < real d) ->
  drills f /\ (forall h p, In h (ExcellonModel.xf_hits f) -> cut (ExcellonModel.xf_store f) h p -> exists n c d, In (n, c) L /\ ExcellonSpec.diameter defs u n = Some d /\ disc (real_pt c) (real d / 2) p /\
      forall q, disc (real_pt c) (real d / 2) q -> cut (ExcellonModel.xf_store f) h q) /\
  (forall p, drilled u defs L p -> cuts f p).
Proof.
  intros E P. assert (K : forall h, In h (ExcellonModel.xf_hits f) -> exists o n c t, h = ExcellonModel.Hit o c /\ In (n, c) L /\ ExcellonSpec.tool_of (ExcellonModel.xf_store f) h = Some t /\
    ExcellonModel.t_diam t = ExcellonSpec.diameter defs u n).
  { intros h J. apply (in_map (ExcellonSpec.hole_view (ExcellonModel.xf_store f))) in J. rewrite E in J. apply in_map_iff in J as ((n & c) & V & J). unfold ExcellonSpec.hole_view in V. cbn [fst snd] in V.
    destruct h as [o c'|]; [|discriminate]. destruct (ExcellonSpec.tool_of _ _) as [t|] eqn:Ht; [|discriminate]. injection V as V1 V2 V3. subst c'. exists o, n, c, t. auto. }
  split; [split|split].
  - intros h J. destruct (K h J) as (o & n & c & t & -> & _ & Ht & _). split; [congruence|exact I].
  - intros h t J Ht. destruct (K h J) as (o & n & c & t' & -> & J' & Ht' & Hd). rewrite Ht in Ht'. injection Ht' as <-. rewrite Hd. exact (P (n, c) J').
  - intros h p J (t & d & Ht & Hd & C). destruct (K h J) as (o & n & c & t' & -> & J' & Ht' & Hd'). rewrite Ht in Ht'. injection Ht' as <-. exists n, c, d. split; [exact J'|]. split; [congruence|]. split; [exact C|].
    intros q Q. exists t, d. auto.
  - intros p (n & c & d & J & Hd & C). apply (in_map (fun h => Some (fst h, ExcellonSpec.diameter defs u (fst h), snd h))) in J. rewrite <- E in J. apply in_map_iff in J as (h & V & J). cbn [fst snd] in V.
    destruct (K h J) as (o & n' & c' & t & -> & _ & Ht & Hd'). unfold ExcellonSpec.hole_view in V. rewrite Ht in V. injection V as V1 V2 V3. subst c'. exists (ExcellonModel.Hit o c). split; [exact J|]. exists t, d. split; [exact Ht|]. split; [congruence|exact C].
Qed.
(** Every hole around the point reaches a pixel farther up. *)
Lemma program_below u defs L f s p : map (ExcellonSpec.hole_view (ExcellonModel.xf_store f)) (ExcellonModel.xf_hits f) = map (fun h => Some (fst h, ExcellonSpec.diameter defs u (fst h), snd h)) L ->
  (forall h, In h L -> exists d, ExcellonSpec.diameter defs u (fst h) = Some d /\ 0 < real d) -> below_holes u defs L s p -> below_cuts f s p.
Proof.
  intros E P B h J C. destruct (program_drills u defs L f E P) as (_ & K & _). destruct (K h p J C) as (n & c & d & J' & Hd & X & Q). pose proof (B n c d J' Hd X) as Up.
  destruct (P (n, c) J') as (d' & Hd' & Pd). cbn [fst] in Hd'. rewrite Hd in Hd'. injection Hd' as <-.
  exists (real (fst c), real (snd c) + real d / 2). split; [apply Q; unfold disc, dist2, real_pt; cbn [fst snd]; nra|cbn [snd]; lra].
Qed.
Lemma program_shown fill u defs L f s b : filling fill -> 0 < s -> map (ExcellonSpec.hole_view (ExcellonModel.xf_store f)) (ExcellonModel.xf_hits f) = map (fun h => Some (fst h, ExcellonSpec.diameter defs u (fst h), snd h)) L ->
  (forall h, In h L -> exists d, ExcellonSpec.diameter defs u (fst h) = Some d /\ 0 < real d) -> bounds b (drilled u defs L) -> within 100000000000 b ->
  exists img, render_drills fill s false f = Ok img /\ forall p, below_holes u defs L s p -> (img (pixel s b false p) <-> drilled u defs L p).
Proof.
  intros Fi S E P B W. destruct (program_drills u defs L f E P) as (D & K & K'). assert (Q : forall p, drilled u defs L p <-> cuts f p).
  { intro p. split; [apply K'|]. intros (h & J & C). destruct (K h p J C) as (n & c & d & J' & Hd & X & _). exists n, c, d. auto. }
  destruct (drills_shown fill f s b Fi D S (bounds_ext b _ _ Q B) W) as (img & R & H). exists img. split; [exact R|]. intros p T0. rewrite Q. apply H. exact (program_below u defs L f s p E P T0).
Qed.

(** ** A board whose first layer is a drill file *)
Lemma drill_first f l mw mh inv mir : exists e, layers_context (drill_bounds f :: l) mw mh inv mir = Err e.
Proof. unfold layers_context, drill_bounds. destruct (layers_scale _ mw mh) as [s|e]; cbn [bind]; eauto. Qed.

(** ** A drill file with a slot *)
Definition bit : ExcellonModel.tool := ExcellonModel.mkTool 1 None None None None (Some (zq 1)) None None 2 ExcellonModel.x_default.
Definition slotted : ExcellonModel.xfile :=
  ExcellonModel.mkXfile ExcellonModel.x_default [] [(1%Z, 0%nat)]
    [ExcellonModel.Hit (Some 0%nat) (zq 1, zq 1); ExcellonModel.Slot (Some 0%nat) (Some (zq 2), Some (zq 3)) (Some (zq 4), Some (zq 3)) false] [bit].
Lemma slotted_drills : drills slotted.
Proof.
  split.
  - intros h [<-|[<-|[]]]; (split; [discriminate|]); [exact I|]. repeat split; discriminate.
  - intros h t [<-|[<-|[]]] E; injection E as <-; exists (zq 1); (split; [reflexivity|]); rewrite real_zq; lra.
Qed.
Definition slotted_cuts : list shape := [disc (1, 1) (1 / 2); stroke (segment (2, 3) (4, 3)) (disc (0, 0) (1 / 2))].
Lemma slotted_cut p : cuts slotted p <-> all_shapes slotted_cuts p.
Proof.
  split.
  - intros (h & [<-|[<-|[]]] & (t & d & Et & Ed & C)); injection Et as <-; injection Ed as <-; unfold real_pt in C; cbn [fst snd] in C; rewrite !real_zq in C; eexists; (split; [|exact C]); [now left|right; now left].
  - intros (sh & [<-|[<-|[]]] & C).
    + exists (ExcellonModel.Hit (Some 0%nat) (zq 1, zq 1)). split; [now left|]. exists bit, (zq 1). split; [reflexivity|]. split; [reflexivity|]. unfold real_pt. cbn [fst snd]. rewrite !real_zq. exact C.
    + exists (ExcellonModel.Slot (Some 0%nat) (Some (zq 2), Some (zq 3)) (Some (zq 4), Some (zq 3)) false). split; [right; now left|]. exists bit, (zq 1). split; [reflexivity|]. split; [reflexivity|].
      unfold real_pt. cbn [fst snd]. rewrite !real_zq. exact C.
Qed.
Lemma slotted_bounds : bounds ((1 / 2, 9 / 2), (1 / 2, 7 / 2)) (cuts slotted).
Proof.
  eapply bounds_ext; [intro p; symmetry; apply slotted_cut|]. apply (boxes_bounds [((1 / 2, 3 / 2), (1 / 2, 3 / 2)); ((3 / 2, 9 / 2), (5 / 2, 7 / 2))] slotted_cuts).
  - constructor; [|constructor; [split|constructor]].
    + replace ((1 / 2, 3 / 2), (1 / 2, 3 / 2)) with (fst (1, 1) - 1 / 2, fst (1, 1) + 1 / 2, (snd (1, 1) - 1 / 2, snd (1, 1) + 1 / 2)) by (cbn [fst snd]; f_equal; f_equal; lra). apply disc_bounds. lra.
    + intros p P. apply (proj1 (slot_bounds _ _ 1 ltac:(lra))) in P. unfold slot_box, BoxModel.slot_box, BoxModel.grow, BoxModel.line_box0, inside in P. cbn [fst snd] in P. unfold half in P.
      rewrite Rmin_left, Rmax_right, Rmin_left, Rmax_left in P by lra. unfold inside. cbn [fst snd]. lra.
    + destruct (slot_bounds (2, 3) (4, 3) 1 ltac:(lra)) as [_ P]. unfold slot_box, BoxModel.slot_box, BoxModel.grow, BoxModel.line_box0, touches in P. cbn [fst snd] in P. unfold half in P.
      rewrite Rmin_left, Rmax_right, Rmin_left, Rmax_left in P by lra. unfold touches. cbn [fst snd]. replace (3 / 2) with (2 - 1 / 2) by lra. replace (9 / 2) with (4 + 1 / 2) by lra. replace (5 / 2) with (3 - 1 / 2) by lra. replace (7 / 2) with (3 + 1 / 2) by lra. exact P.
  - unfold boxes_box, BoxModel.boxes_box, BoxModel.points_box. cbn. repeat (rewrite ?Rmin_left, ?Rmax_right by lra). reflexivity.
Qed.
Lemma slotted_within : within 100000000000 ((1 / 2, 9 / 2), (1 / 2, 7 / 2)).
Proof. unfold within. cbn [fst snd]. lra. Qed.
(** A point of the slot between its ends, at ten pixels per unit *)
Lemma slotted_point : cuts slotted (3, 3) /\ below_cuts slotted 10 (3, 3).
Proof.
  assert (C : forall y, -(1 / 2) <= y <= 1 / 2 -> stroke (segment (2, 3) (4, 3)) (disc (0, 0) (1 / 2)) (3, 3 + y)).
  { intros y Y. exists (3, 3), (0, y). split; [exists (1 / 2); split; [lra|]; cbn [fst snd]; f_equal; lra|]. split; [unfold disc, dist2; cbn [fst snd]; nra|]. cbn [fst snd]. f_equal; lra. }
  assert (D : forall y, -(1 / 2) <= y <= 1 / 2 -> cut (ExcellonModel.xf_store slotted) (ExcellonModel.Slot (Some 0%nat) (Some (zq 2), Some (zq 3)) (Some (zq 4), Some (zq 3)) false) (3, 3 + y)).
  { intros y Y. exists bit, (zq 1). split; [reflexivity|]. split; [reflexivity|]. unfold real_pt. cbn [fst snd]. rewrite !real_zq. now apply C. }
  split.
  - exists (ExcellonModel.Slot (Some 0%nat) (Some (zq 2), Some (zq 3)) (Some (zq 4), Some (zq 3)) false). split; [right; now left|]. replace (3, 3) with (3, 3 + 0) by (f_equal; lra). apply D. lra.
  - intros h [<-|[<-|[]]] X.
    + destruct X as (t & d & Et & Ed & X). injection Et as <-. injection Ed as <-. unfold real_pt, disc, dist2 in X. cbn [fst snd] in X. rewrite !real_zq in X. exfalso. lra.
    + exists (3, 3 + 1 / 2). split; [apply D; lra|cbn [snd]; lra].
Qed.

(** ** A drill program of two holes *)
Definition two_holes : list (Z * ExcellonModel.point) := [(1%Z, (zq 1, zq 1)); (1%Z, (zq 3, zq 2))].
Definition one_bit : list ExcellonSpec.definition := [ExcellonSpec.mkDef 1 [("C"%char, zq 1)]].
Lemma two_holes_drilled p : drilled Inch one_bit two_holes p <-> all_shapes [disc (1, 1) (1 / 2); disc (3, 2) (1 / 2)] p.
Proof.
  split.
  - intros (n & c & d & [E|[E|[]]] & Ed & C); injection E as <- <-; injection Ed as <-; unfold real_pt in C; cbn [fst snd] in C; rewrite !real_zq in C; eexists; (split; [|exact C]); [now left|right; now left].
  - intros (sh & [<-|[<-|[]]] & C).
    + exists 1%Z, (zq 1, zq 1), (zq 1). split; [now left|]. split; [reflexivity|]. unfold real_pt. cbn [fst snd]. rewrite !real_zq. exact C.
    + exists 1%Z, (zq 3, zq 2), (zq 1). split; [right; now left|]. split; [reflexivity|]. unfold real_pt. cbn [fst snd]. rewrite !real_zq. exact C.
Qed.
Lemma two_holes_bounds : bounds ((1 / 2, 7 / 2), (1 / 2, 5 / 2)) (drilled Inch one_bit two_holes).
Proof.
  eapply bounds_ext; [intro p; symmetry; apply two_holes_drilled|]. apply (boxes_bounds [circle_box (1, 1) 1; circle_box (3, 2) 1]).
  - constructor; [apply circle_bounds; lra|]. constructor; [apply circle_bounds; lra|]. constructor.
  - unfold boxes_box, BoxModel.boxes_box, BoxModel.points_box, circle_box, BoxModel.circle_box, BoxModel.around. cbn. unfold half. repeat (rewrite ?Rmin_left, ?Rmax_right by lra). replace (1 - 1 / 2) with (1 / 2) by lra. replace (3 + 1 / 2) with (7 / 2) by lra. replace (2 + 1 / 2) with (5 / 2) by lra. reflexivity.
Qed.
