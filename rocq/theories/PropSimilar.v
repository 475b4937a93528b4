(** Images of moved and of converted files. *)
From Coq Require Import Lra.
From Verif Require Import PyBase QcLib GeomModel GeomSpec CairoModel CairoSpec CairoProofs CairoMore MacroGeomModel MacroGeomProofs ShowModel ShowSpec ShowProofs ShowFile ShowExamples CamShowModel CamShowSpec CamShowProofs CamShowExamples SimilarSpec SimilarProofs SimilarFile SimilarExact SimilarExamples SimilarPolygon.
From Verif Require Import GerberText HeapModel HeapSpec.
From Verif Require HeapProofs GerberEval GerberEvalSpec GerberConv GerberConvSpec ScaleSpec.
Import ListNotations GerberEvalSpec.
Open Scope R_scope.
Open Scope list_scope.

(** ** C139 *)
(** A file moved by [d] has the same image as before, and an image of the same size.  ([b] is the smallest box around
    the marks [ms] of the file.) *)
Definition C139_claim : Prop := forall fill fc s d l f ms b, sensible fill -> moves_along fill -> 0 < s -> GerberConvSpec.equivariant fc -> GerberConvSpec.positioned l -> Forall GerberConvSpec.no_offsets l ->
  GerberConv.open_file fc l = Ok f -> image fc [] l = Some ms -> Forall fair ms -> Forall (fun m => exists q, extent m q) ms ->
  file_box ms b -> within 1000000 b -> within 1000000 (similar_box 1 (real_pt d) b) ->
  exists f' img img', GerberConv.file_offset d f = Ok f' /\ render_whole fill fc s false l = Ok img /\ render_whole fill fc s false (map fst (GerberConv.f_stmts f')) = Ok img' /\
    forall p, img' (pixel s b false p) <-> img (pixel s b false p).
(** It holds more than a pixel below the top of what covers the point. *)
Theorem C139_moved_partial : forall fill fc s d l f ms b, sensible fill -> moves_along fill -> 0 < s -> GerberConvSpec.equivariant fc -> GerberConvSpec.positioned l -> Forall GerberConvSpec.no_offsets l ->
  GerberConv.open_file fc l = Ok f -> image fc [] l = Some ms -> Forall fair ms -> Forall (fun m => exists q, extent m q) ms ->
  file_box ms b -> within 1000000 b -> within 1000000 (similar_box 1 (real_pt d) b) ->
  exists f' img img', GerberConv.file_offset d f = Ok f' /\ render_whole fill fc s false l = Ok img /\ render_whole fill fc s false (map fst (GerberConv.f_stmts f')) = Ok img' /\
    (forall p, below_tops fill s ms p -> (img' (pixel s b false p) <-> img (pixel s b false p))) /\
    exists size, whole_size fc s l = Ok size /\ whole_size fc s (map fst (GerberConv.f_stmts f')) = Ok size.
Proof. exact moved_shown. Qed.
Print Assumptions C139_moved_partial.
Example C139_ex : sensible hulled /\ moves_along hulled /\ GerberConvSpec.equivariant fc0 /\ GerberConvSpec.positioned dots_file /\ Forall GerberConvSpec.no_offsets dots_file /\
  (exists f, GerberConv.open_file fc0 dots_file = Ok f) /\ image fc0 [] dots_file = Some dots /\ Forall fair dots /\ Forall (fun m => exists q, extent m q) dots /\
  file_box dots ((-1, 11), (-1, 11)) /\ within 1000000 ((-1, 11), (-1, 11)) /\ within 1000000 (similar_box 1 (real_pt (zq 5, zq 7)) ((-1, 11), (-1, 11))) /\ below_tops hulled 10 dots beside /\ shows hulled dots beside.
Proof.
  refine (conj hulled_sensible (conj hulled_moves (conj fc0_equivariant (conj dots_file_positioned (conj dots_file_no_offsets (conj dots_file_opens (conj dots_file_image (conj two_dots_fair (conj dots_extent (conj dots_box (conj dots_within (conj _ (conj (beside_below hulled) (beside_shown hulled)))))))))))))).
  unfold within, similar_box, real_pt. cbn [fst snd]. rewrite !real_zq. lra.
Qed.
(** The top row of pixels may appear or disappear. *)
Theorem C139_refuted : ~ C139_claim.
Proof.
  intro C. destruct tall_file_opens as (f & O).
  destruct (C hulled fc0 (5 / 8) (zq 0, zq 1) tall_file f tall_marks _ hulled_sensible hulled_moves ltac:(lra) fc0_equivariant tall_file_positioned tall_file_no_offsets O tall_file_image tall_fair tall_extents tall_box tall_within) as (f' & img & img' & Of & R & R' & H).
  - unfold within, similar_box, real_pt. cbn [fst snd]. rewrite !real_zq. lra.
  - rewrite (higher_is f f' O Of) in R'. exact (tall_lower hulled img hulled_sensible R (proj1 (H (0, 39 / 10)) (higher_kept hulled img' hulled_sensible R'))).
Qed.
Print Assumptions C139_refuted.
(** A file which starts from the implicit origin is torn apart: its image has another size. *)
Theorem C139_origin_refuted : exists f f', Forall GerberConvSpec.no_offsets row_file /\ GerberConv.open_file fc0 row_file = Ok f /\ GerberConv.file_offset (zq 0, zq 5) f = Ok f' /\
  whole_size fc0 1 row_file = Ok (1 * (11 - -1), 1 * (0 + 1 - -1)) /\ whole_size fc0 1 (map fst (GerberConv.f_stmts f')) = Ok (1 * (11 - -1), 1 * (5 + 1 - -1)).
Proof.
  destruct row_opens as (f & O). destruct (row_moves f O) as (f' & Of & E). exists f, f'. split; [repeat constructor|]. split; [exact O|]. split; [exact Of|].
  split; [apply row_size; lra|]. rewrite E. apply moved_row_size. lra.
Qed.
Print Assumptions C139_origin_refuted.

(** ** C140 *)
(** A file converted to the other unit has exactly the same image when it is drawn at the corresponding scale. *)
Definition C140_claim : Prop := forall fill fc w v s l f f' ms b, v <> w -> sensible fill -> 0 < s -> ScaleSpec.proportional fc -> ScaleSpec.declared w l ->
  GerberConv.open_file fc l = Ok f -> image fc [] l = Some ms -> GerberConv.file_to v f = Ok f' -> Forall fair ms -> Forall (fun m => exists q, extent m q) ms ->
  file_box ms b -> within 1000000 b -> within 1000000 (similar_box (real (factor v)) (0, 0) b) ->
  exists img img', render_whole fill fc (real (factor v) * s) false l = Ok img /\ render_whole fill fc s false (map fst (GerberConv.f_stmts f')) = Ok img' /\ forall q, img' q <-> img q.
(** It holds of files whose apertures are circles, rectangles and obrounds, the top row included. *)
Theorem C140_converted_partial : forall fill fc w v s l f f' ms b, v <> w -> sensible fill -> 0 < s -> ScaleSpec.proportional fc -> ScaleSpec.declared w l -> Forall ScaleSpec.plain_apertures l ->
  GerberConv.open_file fc l = Ok f -> image fc [] l = Some ms -> GerberConv.file_to v f = Ok f' -> Forall fair ms -> Forall (fun m => exists q, extent m q) ms ->
  file_box ms b -> within 1000000 b -> within 1000000 (similar_box (real (factor v)) (0, 0) b) ->
  exists img img', render_whole fill fc (real (factor v) * s) false l = Ok img /\ render_whole fill fc s false (map fst (GerberConv.f_stmts f')) = Ok img' /\
    (forall q, img' q <-> img q) /\ exists size, whole_size fc (real (factor v) * s) l = Ok size /\ whole_size fc s (map fst (GerberConv.f_stmts f')) = Ok size.
Proof. intros fill fc w v s l f f' ms b D. rewrite (HeapProofs.unit_other v w D). apply converted_exact. Qed.
Print Assumptions C140_converted_partial.
Example C140_ex : ScaleSpec.proportional fc0 /\ ScaleSpec.declared Inch dots_file /\ Forall ScaleSpec.plain_apertures dots_file /\
  (exists f f', GerberConv.open_file fc0 dots_file = Ok f /\ GerberConv.file_to Metric f = Ok f') /\ image fc0 [] dots_file = Some dots /\ Forall fair dots /\ Forall (fun m => exists q, extent m q) dots /\
  file_box dots ((-1, 11), (-1, 11)) /\ within 1000000 ((-1, 11), (-1, 11)) /\ within 1000000 (similar_box (real (factor Metric)) (0, 0) ((-1, 11), (-1, 11))) /\ real (factor Metric) = 127 / 5.
Proof.
  refine (conj fc0_proportional (conj dots_file_declared (conj dots_file_plain (conj dots_file_converts (conj dots_file_image (conj two_dots_fair (conj dots_extent (conj dots_box (conj dots_within (conj _ real_254)))))))))).
  unfold within, similar_box. cbn [fst snd other factor]. rewrite real_254. lra.
Qed.
(** A hexagon becomes a polygon of 152 sides, nearly a disc. *)
Theorem C140_refuted : ~ C140_claim.
Proof.
  intro C. destruct hexagon_opens as (f & O). destruct (hexagon_converts f O) as (f' & To & E). pose proof (real_zq 1) as R1. pose proof real_254 as R2.
  destruct (C hulled fc0 Inch Metric (500 / 127) hexagon f f' _ _ ltac:(discriminate) hulled_sensible ltac:(lra) fc0_proportional hexagon_declared O hexagon_image To (polygon_fair 6 (zq 1) Inch eq_refl ltac:(lra)) (polygon_extents 6 (zq 1) Inch ltac:(lra)) (polygon_box 6 (zq 1) Inch ltac:(lra))) as (img & img' & R & R' & H).
  - unfold within. cbn [fst snd]. rewrite R1. lra.
  - unfold within, similar_box. cbn [fst snd other factor]. rewrite R1, R2. lra.
  - cbn [other factor] in R. rewrite R2 in R. rewrite E in R'. destruct (hexagon_differs img img' _ eq_refl R R') as [X Y]. exact (X (proj1 (H _) Y)).
Qed.
Print Assumptions C140_refuted.
