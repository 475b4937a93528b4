(** Properties of images: from the text of a file, and of changed drill files. *)
From Coq Require Import Lra Lia Permutation.
From Verif Require Import PyBase QcLib NumSpec GeomModel GeomSpec CairoModel CairoSpec CairoMore CairoScale MacroGeomModel ShowModel ShowSpec ShowFile ShowExamples CamShowModel CamShowSpec CamShowDrill CamShowExamples SimilarSpec DrillShowModel DrillShowSpec DrillShowProofs DrillShowFile DrillShowExamples TextShowProofs.
From Verif Require Import GerberText GerberTextSpec PropSplit.
From Verif Require GerberEval GerberEvalSpec ExcellonModel ExcellonFile ExcellonSpec.
Import ListNotations GerberEvalSpec.
Open Scope R_scope.
Open Scope list_scope.

(** ** C148 *)
(** The image made from the text of a file is dark exactly where the statements of the file, those of included files among
    them, say. *)
Definition C148_claim : Prop := forall fill fc s fs st t l ms b, announceable st -> depicts fs st include_limit t l -> format_before_coords l ->
  sensible fill -> 0 < s -> definitions_ok [] l -> image fc [] l = Some ms -> Forall fair ms -> Forall (fun m => exists q, extent m q) ms -> file_box ms b -> within 1000000 b ->
  exists img, show_text fill fc s false fs t = Ok img /\ forall p, img (pixel s b false p) <-> shows fill ms p.
Theorem C148_text_partial : forall fill fc s fs st t l ms b, announceable st -> depicts fs st include_limit t l -> format_before_coords l ->
  sensible fill -> 0 < s -> definitions_ok [] l -> image fc [] l = Some ms -> Forall fair ms -> Forall (fun m => exists q, extent m q) ms -> file_box ms b -> within 1000000 b ->
  exists img, show_text fill fc s false fs t = Ok img /\ forall p, below_tops fill s ms p -> (img (pixel s b false p) <-> shows fill ms p).
Proof. exact text_shown. Qed.
Print Assumptions C148_text_partial.
(** The top row of pixels may be missing, as in C137. *)
Theorem C148_refuted : ~ C148_claim.
Proof.
  intro C. destruct (GerberTextProofs.write_depicts no_files inch24 inch24_announceable tall_rect (proj1 tall_rect_writable)) as (t & E & D0). pose proof (D0 include_limit) as D.
  destruct (C hulled fc0 (5 / 8) no_files inch24 t tall_rect tall_marks _ inch24_announceable D (proj2 tall_rect_writable) hulled_sensible ltac:(lra) tall_rect_ok tall_rect_image tall_fair tall_extents tall_box tall_within) as (img & R & H).
  unfold show_text in R. rewrite (GerberTextProofs.parse_text_depicts no_files inch24 t tall_rect inch24_announceable D (proj2 tall_rect_writable)) in R. cbn [bind fst] in R.
  exact (tall_rect_cut hulled img hulled_sensible R (proj2 (H (0, 39 / 10)) (tall_shown hulled))).
Qed.
Print Assumptions C148_refuted.
(** A file that is written and read back has the same image, whatever the image is; *)
Theorem C148_rewritten : forall fill fc s inv st l, announceable st -> Forall (line_writable st) l -> format_before_coords l ->
  exists t, GerberText.write_file st l = Ok t /\ forall fs, show_text fill fc s inv fs t = render_whole fill fc s inv l.
Proof. exact text_rewritten. Qed.
Print Assumptions C148_rewritten.
(** and the kind of line breaks does not matter. *)
Theorem C148_line_endings : forall fill fc s inv fs data, ~ In cr data ->
  show_text fill fc s inv fs (with_ending [cr; nl] data) = show_text fill fc s inv fs data /\ show_text fill fc s inv fs (with_ending [cr] data) = show_text fill fc s inv fs data.
Proof. exact text_endings. Qed.
Print Assumptions C148_line_endings.
(** The text of a file with two dots, and a point of the first *)
Example C148_ex : announceable inch24 /\ depicts no_files inch24 include_limit dots_text dots_file /\ Forall (line_writable inch24) dots_file /\ format_before_coords dots_file /\ ~ In cr dots_text /\
  definitions_ok [] dots_file /\ image fc0 [] dots_file = Some dots /\ Forall fair dots /\ Forall (fun m => exists q, extent m q) dots /\
  file_box dots ((-1, 11), (-1, 11)) /\ within 1000000 ((-1, 11), (-1, 11)) /\ below_tops hulled 10 dots beside /\ shows hulled dots beside.
Proof.
  destruct dots_writable as [W F]. refine (conj inch24_announceable (conj (dots_depicted _) (conj W (conj F (conj _ (conj dots_file_ok (conj dots_file_image (conj two_dots_fair (conj dots_extent (conj dots_box
    (conj dots_within (conj (beside_below hulled) (beside_shown hulled))))))))))))).
  unfold dots_text. cbn. intuition discriminate.
Qed.

(** ** C149 *)
(** Moving a drill file changes neither the size of its image nor any pixel. *)
Definition C149_claim : Prop := forall fill f s dx dy b, filling fill -> drills f -> 0 < s -> bounds b (cuts f) -> within 100000000000 b -> within 100000000000 (similar_box 1 (real_pt (dx, dy)) b) ->
  exists f' img img', ExcellonFile.offset dx dy f = Ok f' /\ render_drills fill s false f = Ok img /\ render_drills fill s false f' = Ok img' /\
    (forall p, img' (pixel s b false p) <-> img (pixel s b false p)) /\
    exists size, drills_size s f = Ok size /\ drills_size s f' = Ok size.
Theorem C149_moved_partial : forall fill f s dx dy b, filling fill -> drills f -> 0 < s -> bounds b (cuts f) -> within 100000000000 b -> within 100000000000 (similar_box 1 (real_pt (dx, dy)) b) ->
  exists f' img img', ExcellonFile.offset dx dy f = Ok f' /\ render_drills fill s false f = Ok img /\ render_drills fill s false f' = Ok img' /\
    (forall p, below_cuts f s p -> (img' (pixel s b false p) <-> img (pixel s b false p))) /\
    exists size, drills_size s f = Ok size /\ drills_size s f' = Ok size.
Proof. exact moved_drills. Qed.
Print Assumptions C149_moved_partial.
(** A hole of two and a half pixels loses its top row at one place and not at another. *)
Theorem C149_refuted : ~ C149_claim.
Proof.
  intro C. destruct (C between big (5 / 8) (zq 0) (zq 1) _ between_filling big_drills ltac:(lra) big_bounds) as (f' & img & img' & O & R & R' & H & _).
  - unfold within. cbn [fst snd]. lra.
  - unfold within, similar_box, real_pt. cbn [fst snd]. rewrite !real_zq. lra.
  - rewrite big_offset in O. apply ok_inj in O. subst f'. exact (big_cut between img between_filling R (proj1 (H (0, 39 / 10)) (big_kept between img' between_filling R'))).
Qed.
Print Assumptions C149_refuted.
(** A file with a hole and a slot, moved by (3, -2); a point of the slot. *)
Example C149_ex : drills slotted /\ bounds ((1 / 2, 9 / 2), (1 / 2, 7 / 2)) (cuts slotted) /\ within 100000000000 ((1 / 2, 9 / 2), (1 / 2, 7 / 2)) /\
  within 100000000000 (similar_box 1 (real_pt (zq 3, zq (-2))) ((1 / 2, 9 / 2), (1 / 2, 7 / 2))) /\ cuts slotted (3, 3) /\ below_cuts slotted 10 (3, 3).
Proof.
  destruct slotted_point as [A B]. refine (conj slotted_drills (conj slotted_bounds (conj slotted_within (conj _ (conj A B))))).
  unfold within, similar_box, real_pt. cbn [fst snd]. rewrite !real_zq. lra.
Qed.

(** ** C150 *)
(** Converting a drill file to the other units and drawing it at the corresponding scale gives the same image. *)
Definition C150_claim : Prop := forall fill u f s b f' img img', filling fill -> drills f -> ExcellonSpec.consistent f -> ExcellonModel.xs_units (ExcellonModel.xf_set f) <> u -> 0 < s ->
  bounds b (cuts f) -> within 100000000000 b -> ExcellonFile.convert u f = Ok f' -> render_drills fill s false f = Ok img -> render_drills fill (s / ratio u) false f' = Ok img' ->
  forall p, below_cuts f s p -> (img' (pixel s b false p) <-> img (pixel s b false p)).
(** The holes of a converted file are too large for their distances (C42): two of them come to overlap, and the image is too
    narrow for the second. *)
Theorem C150_refuted : ~ C150_claim.
Proof.
  intro C. destruct (drills_shown between wide 10 _ between_filling wide_drills ltac:(lra) wide_bounds) as (img & R & H); [unfold within; cbn [fst snd]; lra|].
  destruct (drills_exact between wide_metric (10 / ratio Metric) _ between_filling metric_drills ltac:(cbn; lra) metric_bounds) as (img' & R' & _); [unfold within; cbn [fst snd]; lra|].
  apply (wide_lost between img' between_filling R'). apply (C between Metric wide 10 _ wide_metric img img' between_filling wide_drills wide_consistent ltac:(discriminate) ltac:(lra) wide_bounds); try assumption.
  - unfold within. cbn [fst snd]. lra.
  - exact wide_converted.
  - exact wide_below.
  - apply H; [exact wide_below|exact wide_hole].
Qed.
Print Assumptions C150_refuted.
(** What the image of the converted file shows: the tools enlarged at the unmoved positions.  Converting back gives the file
    itself, and with it its image. *)
Theorem C150_converted_partial : forall fill u f s b, filling fill -> drills f -> ExcellonSpec.consistent f -> ExcellonModel.xs_units (ExcellonModel.xf_set f) <> u -> 0 < s ->
  bounds b (swollen (ratio u) f) -> within 100000000000 b ->
  exists f' img, ExcellonFile.convert u f = Ok f' /\ render_drills fill s false f' = Ok img /\ (forall p, below_cuts f' s p -> (img (pixel s b false p) <-> swollen (ratio u) f p)) /\
    ExcellonFile.convert (ExcellonModel.xs_units (ExcellonModel.xf_set f)) f' = Ok f.
Proof. exact converted_shown. Qed.
Print Assumptions C150_converted_partial.
Example C150_ex : drills wide /\ ExcellonSpec.consistent wide /\ ExcellonModel.xs_units (ExcellonModel.xf_set wide) <> Metric /\
  bounds ((- (254 / 10), 354 / 10), (- (254 / 10), 254 / 10)) (swollen (ratio Metric) wide) /\ within 100000000000 ((- (254 / 10), 354 / 10), (- (254 / 10), 254 / 10)).
Proof. refine (conj wide_drills (conj wide_consistent (conj _ (conj wide_swollen _)))); [discriminate|unfold within; cbn [fst snd]; lra]. Qed.

(** ** C151 *)
(** A drill file that is written and read back has the same image, pixel for pixel. *)
Theorem C151_rewritten_partial : forall holesize fill s b f i d locs, usable_format i d -> ExcellonModel.xs_format (ExcellonModel.xf_set f) = (i, d) -> ExcellonModel.xs_notation (ExcellonModel.xf_set f) = ExcellonModel.Absolute ->
  ExcellonSpec.plain_header f locs -> ExcellonSpec.same_units f -> Permutation locs (map snd (ExcellonModel.xf_tools f)) -> NoDup (map fst (ExcellonModel.xf_tools f)) ->
  (forall n l, In (n, l) (ExcellonModel.xf_tools f) -> exists t, nth_error (ExcellonModel.xf_store f) l = Some t /\ ExcellonModel.t_num t = n /\ ExcellonSpec.writable_tool i d t) ->
  Forall (ExcellonSpec.drill_hit f i d) (ExcellonModel.xf_hits f) ->
  filling fill -> drills f -> 0 < s -> bounds b (cuts f) -> within 100000000000 b ->
  exists t f' img img', ExcellonFile.write_file f = Ok t /\ ExcellonModel.parse_raw holesize (ExcellonModel.xf_set f) [] t = Ok f' /\
    render_drills fill s false f = Ok img /\ render_drills fill s false f' = Ok img' /\ forall q, img' q <-> img q.
Proof. exact rewritten_image. Qed.
Print Assumptions C151_rewritten_partial.
(** A file with a slot has an image but cannot be written. *)
Theorem C151_slot_refuted : exists f b, drills f /\ bounds b (cuts f) /\ within 100000000000 b /\ (exists img, render_drills between 10 false f = Ok img) /\ ExcellonFile.write_file f = Err AttributeError.
Proof.
  exists slotted, ((1 / 2, 9 / 2), (1 / 2, 7 / 2)). refine (conj slotted_drills (conj slotted_bounds (conj slotted_within (conj _ _)))); [|vm_compute; reflexivity].
  destruct (drills_shown between slotted 10 _ between_filling slotted_drills ltac:(lra) slotted_bounds slotted_within) as (img & R & _). eauto.
Qed.
Print Assumptions C151_slot_refuted.
(** The file of two holes, with a header. *)
Definition written : ExcellonModel.xfile :=
  ExcellonModel.mkXfile ExcellonModel.x_default
    [(ExcellonModel.EHeaderBegin, Inch); (ExcellonModel.EUnit Inch ExcellonModel.ZLead None, Inch); (ExcellonModel.ETool 0%nat, Inch); (ExcellonModel.ERewind, Inch)]
    [(1%Z, 0%nat)] (ExcellonModel.xf_hits wide) (ExcellonModel.xf_store wide).
Example C151_ex : usable_format 2 4 /\ ExcellonModel.xs_format (ExcellonModel.xf_set written) = (2, 4)%nat /\ ExcellonModel.xs_notation (ExcellonModel.xf_set written) = ExcellonModel.Absolute /\
  ExcellonSpec.plain_header written [0%nat] /\ ExcellonSpec.same_units written /\ Permutation [0%nat] (map snd (ExcellonModel.xf_tools written)) /\ NoDup (map fst (ExcellonModel.xf_tools written)) /\
  (forall n l, In (n, l) (ExcellonModel.xf_tools written) -> exists t, nth_error (ExcellonModel.xf_store written) l = Some t /\ ExcellonModel.t_num t = n /\ ExcellonSpec.writable_tool 2 4 t) /\
  Forall (ExcellonSpec.drill_hit written 2 4) (ExcellonModel.xf_hits written) /\ drills written /\ bounds ((-1, 11), (-1, 1)) (cuts written) /\ within 100000000000 ((-1, 11), (-1, 1)).
Proof.
  split; [unfold usable_format; lia|]. split; [reflexivity|]. split; [reflexivity|].
  split; [exists None, ExcellonModel.ERewind, []; split; [reflexivity|]; split; [now left|exact I]|].
  split; [intros s u J; cbn in J; repeat (destruct J as [J|J]; [injection J as <- <-; reflexivity|]); destruct J|].
  split; [apply Permutation_refl|]. split; [repeat constructor; cbn; intuition|].
  assert (G : forall v k, (Z.abs k < 10 ^ Z.of_nat (2 + 4))%Z -> v = grid k 4 -> ExcellonSpec.grid_value 2 4 v) by (intros v k A B; exists k; auto).
  split.
  { intros n l [E|[]]. injection E as <- <-. eexists. split; [reflexivity|]. split; [reflexivity|]. split; [cbn; lia|]. cbn. repeat (split; [exact I|]).
    exists 20000%Z. split; [reflexivity|]. split; [apply Qc_is_canon; vm_compute; reflexivity|right; vm_compute; discriminate]. }
  split.
  { repeat constructor; exists 1%Z, 0%nat; do 2 eexists; (split; [reflexivity|]); (split; [now left|]).
    - split; apply (G _ 0%Z); try reflexivity; apply Qc_is_canon; vm_compute; reflexivity.
    - split; [apply (G _ 100000%Z)|apply (G _ 0%Z)]; try reflexivity; apply Qc_is_canon; vm_compute; reflexivity. }
  split; [exact wide_drills|]. split; [exact wide_bounds|]. unfold within. cbn [fst snd]. lra.
Qed.
