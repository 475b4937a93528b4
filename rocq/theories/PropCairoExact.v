(** What images show exactly: the upper edges of what is drawn included. *)
From Coq Require Import Lra.
From Verif Require Import PyBase QcLib NumModel GeomModel GeomSpec GeomProofs CairoModel CairoSpec CairoMore CairoScale CairoProofs CairoExactSpec CairoExact CairoExactFile MacroGeomModel MacroGeomProofs ShowModel ShowSpec ShowFile ShowExamples CamShowModel CamShowSpec CamShowExamples NetShowModel NetShowSpec.
From Verif Require Import GerberText.
From Verif Require GerberEval GerberEvalSpec ExcellonModel IpcModel.
Import ListNotations GerberEvalSpec.
Open Scope R_scope.
Open Scope list_scope.

(** ** C101 *)
(** Of each primitive, the image shows what is not above the last whole pixel of its box ([remains], CairoExactSpec.v), and nothing else. *)
Theorem C101_exact : forall fill b s mir l, filling fill -> 0 < s -> fst (fst b) <= snd (fst b) -> fst (snd b) <= snd (snd b) -> Forall (renderable_item fill) l ->
  exists img, render_layer fill (set_bounds s b false mir) l = Ok img /\
  forall p, inside b p -> (img (pixel s b mir p) <-> darkened (map (item_remains fill s b) l) p).
Proof. exact layer_exact. Qed.
Print Assumptions C101_exact.
(** Without any rows lost, the claim of C101 holds. *)
Theorem C101_aligned_partial : forall fill b s mir l, filling fill -> 0 < s -> fst (fst b) <= snd (fst b) -> fst (snd b) <= snd (snd b) -> Forall (renderable_item fill) l -> aligned s b l ->
  exists img, render_layer fill (set_bounds s b false mir) l = Ok img /\
  forall p, inside b p -> (img (pixel s b mir p) <-> layer_shows fill l p).
Proof. exact layer_aligned. Qed.
Print Assumptions C101_aligned_partial.
(** The block ends at 7 1/2: at one pixel per unit it is shown up to 7. *)
Lemma low_rows : rows 1 (fst (snd ten)) (7 + 1 / 2) = 7.
Proof. unfold rows. cbn [ten fst snd]. rewrite Rmult_0_r, (whole_int 0). replace (1 * (7 + 1 / 2) - 0) with (7 + 1 / 2) by ring. exact (floor_is 7 (7 + 1 / 2) ltac:(lra)). Qed.
Example C101_ex_exact : Forall (renderable_item CairoMore.between) [Single low] /\ darkened (map (item_remains CairoMore.between 1 ten) [Single low]) (5, 7) /\ inside ten (5, 7) /\
  ~ darkened (map (item_remains CairoMore.between 1 ten) [Single low]) CairoMore.edge /\ inside ten CairoMore.edge.
Proof.
  split; [constructor; [apply low_renderable|constructor]|]. split; [|split; [unfold inside; cbn; lra|split; [|unfold inside; cbn; lra]]].
  - exists [], (remains CairoMore.between 1 ten low), []. split; [reflexivity|]. split; [|intros s []]. split.
    + apply low_shape, turned_zero. unfold oblong. cbn [fst snd]. lra.
    + cbn [bbox low snd]. rewrite low_rows. cbn [ten fst snd]. lra.
  - intros ([|x l1] & sh & l2 & E & K & _).
    + injection E as <- _. destruct K as [_ K]. revert K. cbn [bbox low snd]. rewrite low_rows. cbn [ten CairoMore.edge fst snd]. lra.
    + injection E as _ E. destruct l1; discriminate.
Qed.
(** A block from 3 to 7 *)
Example C101_ex_aligned : Forall (renderable_item CairoMore.between) (one_block true 0) /\ aligned 1 ten (one_block true 0) /\ layer_shows CairoMore.between (one_block true 0) middle.
Proof.
  destruct (one_block_ok CairoMore.between) as (R & S & _). split; [|split; [|exact S]].
  - apply Forall_forall. intros i J. rewrite Forall_forall in R. specialize (R i J). destruct J as [<-|[]]. destruct R as (E & Si & Dk & So). split; [exact E|]. split; [exact Si|now left].
  - split; [exists 0%Z; cbn; lra|]. intros d [<-|[]]. exists 7%Z. cbn. lra.
Qed.

(** ** C102 *)
Theorem C102_exact_partial : forall fill b s mir l, filling fill -> 0 < s -> fst (fst b) <= snd (fst b) -> fst (snd b) <= snd (snd b) -> Forall (invertible_item fill) l ->
  exists img, render_layer fill (set_bounds s b true mir) l = Ok img /\
  forall p, inside b p -> (img (pixel s b mir p) <-> ~ darkened (map (item_remains fill s b) l) p).
Proof. exact inverted_exact. Qed.
Print Assumptions C102_exact_partial.
Example C102_ex_exact : Forall (invertible_item CairoMore.between) (one_block true 0) /\ inside ten (1, 1) /\ ~ darkened (map (item_remains CairoMore.between 1 ten) (one_block true 0)) (1, 1).
Proof.
  destruct (one_block_ok CairoMore.between) as (R & _ & N & I0). split; [exact R|]. split; [exact I0|]. intro D. apply N. unfold layer_shows.
  destruct D as ([|x l1] & sh & l2 & E & K & _); [|injection E as _ E; destruct l1; discriminate]. injection E as <- _. destruct K as [K _]. eexists [], _, []. split; [reflexivity|]. split; [exact K|intros s []].
Qed.

(** ** C135 *)
(** Marks other than macros, within the outermost coordinates *)
Theorem C135_exact_partial : forall fill fc s mir l ms b, sensible fill -> 0 < s -> definitions_ok [] l -> image fc [] l = Some ms -> Forall fair ms -> Forall no_macro ms ->
  limited (zq 1000000) (x_coords l ++ y_coords l) -> coordinate_box l b ->
  exists img, render_statements fill fc s false mir l = Ok img /\
    forall p, inside b p -> (img (pixel s b mir p) <-> darkened (map (mark_kept fill s b) ms) p).
Proof. exact statements_exact. Qed.
Print Assumptions C135_exact_partial.

(** ** C137 *)
Theorem C137_exact_partial : forall fill fc s l ms b, sensible fill -> 0 < s -> definitions_ok [] l -> image fc [] l = Some ms -> Forall fair ms -> Forall no_macro ms ->
  Forall (fun m => exists q, extent m q) ms -> file_box ms b -> within 1000000 b ->
  exists img, render_whole fill fc s false l = Ok img /\ forall p, img (pixel s b false p) <-> darkened (map (mark_kept fill s b) ms) p.
Proof. exact whole_exact. Qed.
Print Assumptions C137_exact_partial.
Theorem C137_exact_inverted_partial : forall fill fc s l ms b, sensible fill -> 0 < s -> definitions_ok [] l -> image fc [] l = Some ms -> Forall fair ms -> Forall no_macro ms -> Forall solid_mark ms ->
  Forall (fun m => exists q, extent m q) ms -> file_box ms b -> within 1000000 b ->
  exists img, render_whole fill fc s true l = Ok img /\ forall p, inside b p -> (img (pixel s b false p) <-> ~ darkened (map (mark_kept fill s b) ms) p).
Proof. exact whole_exact_inverted. Qed.
Print Assumptions C137_exact_inverted_partial.
(** The rectangle from 0 to 4, at 5/8 pixels per unit, is two rows and a half high; two are shown, up to 16/5. *)
Lemma tall_rows : rows (5 / 8) 0 4 = 2.
Proof. unfold rows. rewrite Rmult_0_r, (whole_int 0). exact (floor_is 2 (5 / 8 * 4 - 0) ltac:(lra)). Qed.
Lemma tall_one : bounds ((-1, 1), (0, 4)) (extent (ShowExamples.dot (rect 2 4) 0 2 Dark)).
Proof. eapply bounds_ext; [|exact tall_box]. intro p. split; [intros (m & [<-|[]] & X); exact X|intro X; eexists; split; [left; reflexivity|exact X]]. Qed.
Example C137_ex_exact : definitions_ok [] tall /\ image fc0 [] tall = Some tall_marks /\ Forall fair tall_marks /\ Forall no_macro tall_marks /\ Forall (fun m => exists q, extent m q) tall_marks /\
  file_box tall_marks ((-1, 1), (0, 4)) /\ within 1000000 ((-1, 1), (0, 4)) /\
  darkened (map (mark_kept hulled (5 / 8) ((-1, 1), (0, 4))) tall_marks) (0, 16 / 5) /\ ~ darkened (map (mark_kept hulled (5 / 8) ((-1, 1), (0, 4))) tall_marks) (0, 39 / 10).
Proof.
  refine (conj tall_ok (conj tall_image (conj tall_fair (conj _ (conj tall_extents (conj tall_box (conj tall_within (conj _ _)))))))).
  - constructor; [|constructor]. intros o ps E. injection E as <-. discriminate.
  - exists [], (kept (5 / 8) ((-1, 1), (0, 4)) (covers hulled (ShowExamples.dot (rect 2 4) 0 2 Dark)) (extent (ShowExamples.dot (rect 2 4) 0 2 Dark))), []. split; [reflexivity|]. split; [|intros s []].
    split; [apply tall_covers; cbn [fst snd]; lra|]. exists ((-1, 1), (0, 4)). split; [exact tall_one|]. cbn [fst snd]. rewrite tall_rows. lra.
  - intros ([|x l1] & sh & l2 & E & K & _); [|injection E as _ E; destruct l1; discriminate]. injection E as <- _. apply (proj1 (kept_iff _ _ _ _ _ _ tall_one)) in K as [_ K].
    cbn [fst snd] in K. rewrite tall_rows in K. lra.
Qed.

(** ** C138 *)
Theorem C138_exact : forall fill f s b, filling fill -> drills f -> 0 < s -> bounds b (cuts f) -> within 100000000000 b ->
  exists img, render_drills fill s false f = Ok img /\ forall p, img (pixel s b false p) <-> cuts_kept f s b p.
Proof. exact drills_exact. Qed.
Print Assumptions C138_exact.
Theorem C138_exact_layer : forall fill f s b mir, filling fill -> drills f -> 0 < s -> fst (fst b) <= snd (fst b) -> fst (snd b) <= snd (snd b) ->
  exists img, render_drill_layer fill s b false mir f = Ok img /\ forall p, inside b p -> (img (pixel s b mir p) <-> cuts_kept f s b p).
Proof. exact drill_layer_exact. Qed.
Print Assumptions C138_exact_layer.
Theorem C138_exact_inverted : forall fill f s b mir, filling fill -> drills f -> 0 < s -> fst (fst b) <= snd (fst b) -> fst (snd b) <= snd (snd b) ->
  exists img, render_drill_layer fill s b true mir f = Ok img /\ forall p, inside b p -> (img (pixel s b mir p) <-> ~ cuts_kept f s b p).
Proof. exact drill_layer_exact_inverted. Qed.
Print Assumptions C138_exact_inverted.
(** The slot of [slotted] reaches up to 7/2, which is a whole pixel above the lower edge of the image. *)
Definition its_slot : ExcellonModel.hit := ExcellonModel.Slot (Some 0%nat) (Some (zq 2), Some (zq 3)) (Some (zq 4), Some (zq 3)) false.
Lemma its_slot_cut p : cut (ExcellonModel.xf_store slotted) its_slot p <-> stroke (segment (2, 3) (4, 3)) (disc (0, 0) (1 / 2)) p.
Proof.
  split.
  - intros (t & d & Et & Ed & X). injection Et as <-. injection Ed as <-. unfold real_pt, its_slot in X. cbn [fst snd] in X. rewrite !real_zq in X. exact X.
  - intro X. exists bit, (zq 1). split; [reflexivity|]. split; [reflexivity|]. unfold real_pt, its_slot. cbn [fst snd]. rewrite !real_zq. exact X.
Qed.
Example C138_ex_exact : drills slotted /\ bounds ((1 / 2, 9 / 2), (1 / 2, 7 / 2)) (cuts slotted) /\ within 100000000000 ((1 / 2, 9 / 2), (1 / 2, 7 / 2)) /\
  cuts_kept slotted 10 ((1 / 2, 9 / 2), (1 / 2, 7 / 2)) (3, 7 / 2).
Proof.
  split; [exact slotted_drills|]. split; [exact slotted_bounds|]. split; [exact slotted_within|]. exists its_slot. split; [right; now left|].
  assert (B : bounds ((3 / 2, 9 / 2), (5 / 2, 7 / 2)) (cut (ExcellonModel.xf_store slotted) its_slot)).
  { eapply bounds_ext; [intro p; symmetry; apply its_slot_cut|]. eapply bounds_eq; [apply slot_bounds; lra|]. unfold slot_box, BoxModel.slot_box, BoxModel.grow, BoxModel.line_box0, half. cbn [fst snd]. rewrite (Rmin_left 2 4), (Rmax_right 2 4), (Rmin_left 3 3), (Rmax_left 3 3) by lra. f_equal; f_equal; lra. }
  split; [|exists ((3 / 2, 9 / 2), (5 / 2, 7 / 2)); split; [exact B|]].
  - apply its_slot_cut. exists (3, 3), (0, 1 / 2). split; [exists (1 / 2); split; [lra|]; cbn [fst snd]; f_equal; lra|]. split; [unfold disc, dist2; cbn [fst snd]; nra|]. cbn [fst snd]. f_equal; lra.
  - unfold rows. cbn [fst snd]. replace (10 * (1 / 2)) with 5 by lra. rewrite (whole_int 5). replace (10 * (7 / 2) - 5) with 30 by lra. rewrite (whole_int 30). lra.
Qed.

(** ** C155 *)
Theorem C155_exact : forall fill glyphs s b mir l n, filling fill -> 0 < s -> fst (fst b) <= snd (fst b) -> fst (snd b) <= snd (snd b) ->
  let corner := (fst (fst b), fst (snd b)) in
  exists img, render_netlist fill glyphs (Some (set_bounds s b false mir)) l n = Ok img /\
  forall p, inside b p -> (img (pixel s b mir p) <-> dots_kept corner l n s b p \/ named glyphs s corner l n (pixel s b mir p)).
Proof. exact netlist_exact. Qed.
Print Assumptions C155_exact.
Example C155_ex_exact : dots_kept (1, 1) IpcModel.RTop one_point 1000 ((1, 5), (1, 5)) (3, 3).
Proof.
  exists (2, 2), (T "A"). split; [exact NetShowProofs.one_reachable|]. split; [unfold disc, dist2; cbn; lra|]. unfold rows. cbn [fst snd]. rewrite Rmult_1_r, (whole_int 1000).
  replace (1000 * (2 + 1 + 15 / 2000) - 1000) with (2007 + 1 / 2) by lra. change (1000 * 3 - 1000 <= floor (2007 + 1 / 2)). rewrite (floor_is 2007 (2007 + 1 / 2)); lra.
Qed.
