(** Images of whole files. *)
From Coq Require Import Lra.
From Verif Require Import PyBase QcLib NumModel NumSpec GeomModel GeomSpec CairoModel CairoSpec CairoProofs CairoMore MacroGeomModel MacroGeomProofs ShowModel ShowSpec ShowProofs ShowFile ShowExamples CamShowModel CamShowSpec CamShowProofs CamShowDrill CamShowExamples.
From Verif Require Import GerberText.
From Verif Require GerberEval GerberEvalSpec ExcellonModel ExcellonSpec PropExcellon.
Import ListNotations GerberEvalSpec.
Open Scope R_scope.
Open Scope list_scope.

(** ** C137 *)
(** The image that render() makes of a single file shows all of the file: it is as large as the smallest box around all
    marks [ms] of the file ([image] as in C24), and dark exactly where the marks say. *)
Definition C137_claim : Prop := forall fill fc s l ms b, sensible fill -> 0 < s -> definitions_ok [] l -> image fc [] l = Some ms -> Forall fair ms ->
  Forall (fun m => exists q, extent m q) ms -> file_box ms b -> within 1000000 b ->
  exists img, render_whole fill fc s false l = Ok img /\ forall p, img (pixel s b false p) <-> shows fill ms p.
(** It holds more than a pixel below the top of what covers the point.  Unlike images of boards (C135) nothing is cut off
    at the outermost coordinates. *)
Theorem C137_whole_partial : forall fill fc s l ms b, sensible fill -> 0 < s -> definitions_ok [] l -> image fc [] l = Some ms -> Forall fair ms ->
  Forall (fun m => exists q, extent m q) ms -> file_box ms b -> within 1000000 b ->
  exists img, render_whole fill fc s false l = Ok img /\ forall p, below_tops fill s ms p -> (img (pixel s b false p) <-> shows fill ms p).
Proof. exact whole_shown. Qed.
Print Assumptions C137_whole_partial.
(** The image is as large as the file. *)
Theorem C137_size : forall fill fc s l ms b, sensible fill -> 0 < s -> definitions_ok [] l -> image fc [] l = Some ms -> Forall fair ms ->
  Forall (fun m => exists q, extent m q) ms -> file_box ms b -> within 1000000 b ->
  whole_size fc s l = Ok (s * (snd (fst b) - fst (fst b)), s * (snd (snd b) - fst (snd b))).
Proof. exact whole_size_is. Qed.
Print Assumptions C137_size.
(** Inverted, it shows the rest of the box. *)
Theorem C137_inverted_partial : forall fill fc s l ms b, sensible fill -> 0 < s -> definitions_ok [] l -> image fc [] l = Some ms -> Forall fair ms -> Forall solid_mark ms ->
  Forall (fun m => exists q, extent m q) ms -> file_box ms b -> within 1000000 b ->
  exists img, render_whole fill fc s true l = Ok img /\ forall p, inside b p -> below_tops fill s ms p -> (img (pixel s b false p) <-> ~ shows fill ms p).
Proof. exact whole_inverted. Qed.
Print Assumptions C137_inverted_partial.
(** The point left of the first dot, which is missing in the image of a board (C135), is shown. *)
Example C137_ex : definitions_ok [] two_dots /\ image fc0 [] two_dots = Some dots /\ Forall fair dots /\ Forall solid_mark dots /\ Forall (fun m => exists q, extent m q) dots /\
  file_box dots ((-1, 11), (-1, 11)) /\ within 1000000 ((-1, 11), (-1, 11)) /\ below_tops hulled 10 dots beside /\ inside ((-1, 11), (-1, 11)) beside /\ shows hulled dots beside.
Proof.
  refine (conj two_dots_ok (conj two_dots_image (conj two_dots_fair (conj dots_solid (conj dots_extent (conj dots_box (conj dots_within (conj (beside_below hulled) (conj _ (beside_shown hulled)))))))))).
  unfold inside, beside. cbn [fst snd]. lra.
Qed.
(** The top row of pixels may be missing. *)
Theorem C137_refuted : ~ C137_claim.
Proof.
  intro C. destruct (C hulled fc0 (5 / 8) tall tall_marks _ hulled_sensible ltac:(lra) tall_ok tall_image tall_fair tall_extents tall_box tall_within) as (img & R & H).
  exact (tall_cut hulled img hulled_sensible R (proj2 (H (0, 39 / 10)) (tall_shown hulled))).
Qed.
Print Assumptions C137_refuted.
(** A file which marks nothing has no box; its image is a square of two million units. *)
Theorem C137_empty_refuted : forall fc s l, definitions_ok [] l -> image fc [] l = Some [] -> whole_size fc s l = Ok (s * 2000000, s * 2000000).
Proof. exact empty_size. Qed.
Print Assumptions C137_empty_refuted.
Example C137_ex_empty : definitions_ok [] moves /\ image fc0 [] moves = Some [].
Proof. exact (conj moves_ok moves_image). Qed.

(** ** C138 *)
(** The image of a drill file shows its holes and slots ([cuts], the hits with the diameters of their tools), and it is
    as large as they are. *)
Theorem C138_file_partial : forall fill f s b, filling fill -> drills f -> 0 < s -> bounds b (cuts f) -> within 100000000000 b ->
  exists img, render_drills fill s false f = Ok img /\ forall p, below_cuts f s p -> (img (pixel s b false p) <-> cuts f p).
Proof. exact drills_shown. Qed.
Print Assumptions C138_file_partial.
(** From the text: a header with tool definitions and a body of tool selections and holes (the hypotheses of C36). *)
Theorem C138_program_partial : forall holesize se u z fo tu i d defs dl e prog body tail eol fill s b,
  ExcellonSpec.format_text fo tu -> (i, d) = match fo with Some f => f | None => ExcellonModel.xs_format se end -> ExcellonSpec.readable i d ->
  Forall2 (ExcellonSpec.defines i d z) defs dl -> (e = T "%" \/ e = T "M95") -> Forall2 (ExcellonSpec.says i d z) prog body ->
  (tail = [] \/ tail = [T "M30"]) -> ExcellonSpec.line_end eol -> ExcellonSpec.tool_known (ExcellonSpec.is_defined 1 defs) prog ->
  let hs := ExcellonSpec.holes None (ExcellonSpec.start_inc se) (0, 0)%Qc prog in
  (forall h, In h hs -> exists d, ExcellonSpec.diameter defs u (fst h) = Some d /\ 0 < real d) ->
  filling fill -> 0 < s -> bounds b (drilled u defs hs) -> within 100000000000 b ->
  exists f img, ExcellonModel.parse_raw holesize se [] (ExcellonSpec.file_text eol (T "M48" :: (ExcellonSpec.unit_text u ++ ExcellonSpec.zeros_text z ++ tu) :: dl ++ e :: body ++ tail)) = Ok f /\
    render_drills fill s false f = Ok img /\ forall p, below_holes u defs hs s p -> (img (pixel s b false p) <-> drilled u defs hs p).
Proof.
  intros holesize se u z fo tu i d defs dl e prog body tail eol fill s b H1 H2 H3 H4 H5 H6 H7 H8 H9 hs P Fi S B W.
  destruct (PropExcellon.C36_drilling holesize se u z fo tu i d defs dl e prog body tail eol H1 H2 H3 H4 H5 H6 H7 H8 H9) as (f & R & V & _).
  destruct (program_shown fill u defs hs f s b Fi S V P B W) as (img & Rd & Q). exists f, img. auto.
Qed.
Print Assumptions C138_program_partial.
(** The same within the bounds of a board, mirrored or not ... *)
Theorem C138_layer_partial : forall fill f s b mir, filling fill -> drills f -> 0 < s -> fst (fst b) <= snd (fst b) -> fst (snd b) <= snd (snd b) ->
  exists img, render_drill_layer fill s b false mir f = Ok img /\ forall p, inside b p -> below_cuts f s p -> (img (pixel s b mir p) <-> cuts f p).
Proof. exact drill_layer_shown. Qed.
Print Assumptions C138_layer_partial.
(** ... and inverted. *)
Theorem C138_inverted_partial : forall fill f s b mir, filling fill -> drills f -> 0 < s -> fst (fst b) <= snd (fst b) -> fst (snd b) <= snd (snd b) ->
  exists img, render_drill_layer fill s b true mir f = Ok img /\ forall p, inside b p -> below_cuts f s p -> (img (pixel s b mir p) <-> ~ cuts f p).
Proof. exact drill_layer_inverted. Qed.
Print Assumptions C138_inverted_partial.
Example C138_ex : filling CairoMore.between /\ drills slotted /\ bounds ((1 / 2, 9 / 2), (1 / 2, 7 / 2)) (cuts slotted) /\ within 100000000000 ((1 / 2, 9 / 2), (1 / 2, 7 / 2)) /\
  cuts slotted (3, 3) /\ below_cuts slotted 10 (3, 3).
Proof. exact (conj CairoMore.between_filling (conj slotted_drills (conj slotted_bounds (conj slotted_within slotted_point)))). Qed.
Definition two_holes_prog : list ExcellonSpec.instr := [ExcellonSpec.Use 1; ExcellonSpec.At (Some (zq 1)) (Some (zq 1)); ExcellonSpec.At (Some (zq 3)) (Some (zq 2))].
Example C138_ex_program : ExcellonSpec.holes None false (0, 0)%Qc two_holes_prog = two_holes /\ (forall h, In h two_holes -> exists d, ExcellonSpec.diameter one_bit Inch (fst h) = Some d /\ 0 < real d) /\
  bounds ((1 / 2, 7 / 2), (1 / 2, 5 / 2)) (drilled Inch one_bit two_holes) /\ below_holes Inch one_bit two_holes 10 (3, 2) /\ drilled Inch one_bit two_holes (3, 2).
Proof.
  split; [reflexivity|]. split; [intros h [<-|[<-|[]]]; exists (zq 1); (split; [reflexivity|rewrite real_zq; lra])|]. split; [exact two_holes_bounds|]. split.
  - intros n c d [E|[E|[]]] Ed C; injection E as <- <-; injection Ed as <-; unfold real_pt, disc, dist2 in C; cbn [fst snd] in *; rewrite !real_zq in *; lra.
  - exists 1%Z, (zq 3, zq 2), (zq 1). split; [right; now left|]. split; [reflexivity|]. unfold disc, dist2, real_pt. cbn [fst snd]. rewrite !real_zq. lra.
Qed.
(** A drill file has no bounds: a board whose first layer is a drill file cannot be drawn. *)
Theorem C138_first_refuted : forall f l mw mh inv mir, exists e, layers_context (drill_bounds f :: l) mw mh inv mir = Err e.
Proof. exact drill_first. Qed.
Print Assumptions C138_first_refuted.
