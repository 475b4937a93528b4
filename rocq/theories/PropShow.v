(** From Gerber files to images. *)
From Coq Require Import Lra.
From Verif Require Import PyBase QcLib GeomModel GeomSpec CairoModel CairoSpec MacroGeomModel MacroGeomProofs ShowModel ShowSpec ShowProofs ShowFile ShowExamples.
From Verif Require Import GerberText.
From Verif Require GerberEval GerberEvalSpec.
Import ListNotations GerberEvalSpec.
Open Scope R_scope.
Open Scope list_scope.

(** ** C135 *)
(** The image of a file is dark exactly where the file says: [image] are the marks its statements make (C24), [shows] what
    marks show.  [fill] is the rule for the inside of contours, [b] the outermost coordinates in the file, [s] the number
    of pixels per unit. *)
Definition C135_claim : Prop := forall fill fc s mir l ms b, sensible fill -> 0 < s -> definitions_ok [] l -> image fc [] l = Some ms -> Forall fair ms ->
  limited (zq 1000000) (x_coords l ++ y_coords l) -> coordinate_box l b ->
  exists img, render_statements fill fc s false mir l = Ok img /\ forall p, below_tops fill s ms p -> (img (pixel s b mir p) <-> shows fill ms p).
(** It holds within the outermost coordinates, more than a pixel below the top of what covers the point, for files which
    draw lines with circles and rectangles, arcs with circles, closed regions, and flash circles, rectangles, obrounds, polygons
    and dark macros made of exposed circles, outlines, polygons and centre lines (the last two not turned, or centred). *)
Theorem C135_file_partial : forall fill fc s mir l ms b, sensible fill -> 0 < s -> definitions_ok [] l -> image fc [] l = Some ms -> Forall fair ms ->
  limited (zq 1000000) (x_coords l ++ y_coords l) -> coordinate_box l b ->
  exists img, render_statements fill fc s false mir l = Ok img /\
    forall p, inside b p -> below_tops fill s ms p -> (img (pixel s b mir p) <-> shows fill ms p).
Proof. exact C135_lemma. Qed.
Print Assumptions C135_file_partial.
(** Nothing is shown beyond the outermost coordinates: the outer half of what is flashed or drawn there is missing. *)
Theorem C135_beyond : forall fill fc s inv mir l b img p, 0 < s -> limited (zq 1000000) (x_coords l ++ y_coords l) -> coordinate_box l b ->
  render_statements fill fc s inv mir l = Ok img -> img (pixel s b mir p) -> inside b p.
Proof. exact beyond_bounds. Qed.
Print Assumptions C135_beyond.
Theorem C135_refuted : ~ C135_claim.
Proof.
  intro C. destruct (C hulled fc0 10 false two_dots _ _ hulled_sensible ltac:(lra) two_dots_ok two_dots_image two_dots_fair two_dots_limited two_dots_box) as (img & R & H).
  pose proof (proj2 (H beside (beside_below hulled)) (beside_shown hulled)) as X.
  pose proof (C135_beyond hulled fc0 10 false false two_dots _ img beside ltac:(lra) two_dots_limited two_dots_box R X) as B. unfold inside, beside in B. cbn [fst snd] in B. lra.
Qed.
Print Assumptions C135_refuted.
(** Lines drawn with obrounds are not shown at all; ... *)
Theorem C135_obround_refuted : forall fill fc s mir l ms, definitions_ok [] l -> image fc [] l = Some ms -> Forall obround_line ms ->
  exists img, render_statements fill fc s false mir l = Ok img /\ forall q, ~ img q.
Proof. exact obround_lines. Qed.
Print Assumptions C135_obround_refuted.
Example C135_ex_obround : definitions_ok [] obround_file /\ image fc0 [] obround_file = Some [line 0 0 10 10 (obround 2 1)] /\
  obround_line (line 0 0 10 10 (obround 2 1)) /\ forall fill, shows fill [line 0 0 10 10 (obround 2 1)] (5, 5).
Proof. split; [exact obround_ok|]. split; [exact obround_image|]. split; [exact I|exact obround_shown]. Qed.
(** ... lines drawn with polygons are errors. *)
Theorem C135_polygon_refuted : forall fill fc s inv mir l m ms, definitions_ok [] l -> image fc [] l = Some (m :: ms) -> polygon_line m ->
  render_statements fill fc s inv mir l = Err AttributeError.
Proof. exact polygon_lines. Qed.
Print Assumptions C135_polygon_refuted.
Example C135_ex_polygon : definitions_ok [] polygon_file /\ exists m, image fc0 [] polygon_file = Some [m] /\ polygon_line m.
Proof. split; [exact polygon_ok|exact polygon_image]. Qed.
(** Macros are drawn dark, whatever their polarity: a clear one removes nothing. *)
Theorem C135_macro_refuted : forall fill fc s inv mir l l' ms ms' b, definitions_ok [] l -> definitions_ok [] l' -> image fc [] l = Some ms -> image fc [] l' = Some ms' ->
  Forall2 alike ms ms' -> limited (zq 1000000) (x_coords l ++ y_coords l) -> limited (zq 1000000) (x_coords l' ++ y_coords l') -> coordinate_box l b -> coordinate_box l' b ->
  render_statements fill fc s inv mir l = render_statements fill fc s inv mir l'.
Proof. exact macro_polarity. Qed.
Print Assumptions C135_macro_refuted.
Example C135_ex_clear_macro : (forall p, definitions_ok [] (key_on_dot p) /\ image fc0 [] (key_on_dot p) = Some (key_on_dot_marks p) /\
    limited (zq 1000000) (x_coords (key_on_dot p) ++ y_coords (key_on_dot p)) /\ coordinate_box (key_on_dot p) ((0, 20), (0, 20))) /\
  Forall2 alike (key_on_dot_marks Clear) (key_on_dot_marks Dark) /\ shows hulled (key_on_dot_marks Dark) (12, 10) /\ ~ shows hulled (key_on_dot_marks Clear) (12, 10).
Proof.
  split; [exact (fun p => conj (key_on_dot_ok p) (conj (key_on_dot_image p) (conj (key_on_dot_limited p) (key_on_dot_box p))))|].
  exact (conj key_on_dot_alike (conj (key_dark hulled) (key_clear hulled))).
Qed.
(** What is drawn in general: the primitives of a macro count as marks of their own, dark if exposed and clear if not. *)
Theorem C135_apart : forall fill fc s mir l ms ls b, sensible fill -> 0 < s -> definitions_ok [] l -> image fc [] l = Some ms -> Forall drawn_mark ms -> Forall2 (taken_apart fill) ms ls ->
  limited (zq 1000000) (x_coords l ++ y_coords l) -> coordinate_box l b ->
  exists img, render_statements fill fc s false mir l = Ok img /\
    forall p, inside b p -> below_tops fill s ms p -> (img (pixel s b mir p) <-> darkened (List.concat ls) p).
Proof. exact apart_shown. Qed.
Print Assumptions C135_apart.
Example C135_ex_apart : definitions_ok [] ring_file /\ image fc0 [] ring_file = Some ring_marks /\ Forall drawn_mark ring_marks /\ Forall2 (taken_apart hulled) ring_marks (ring_pieces hulled) /\
  limited (zq 1000000) (x_coords ring_file ++ y_coords ring_file) /\ coordinate_box ring_file ((0, 20), (0, 20)) /\ below_tops hulled 10 ring_marks (10, 10) /\
  ~ darkened (List.concat (ring_pieces hulled)) (10, 10).
Proof. exact (conj ring_ok (conj ring_image (conj ring_drawn (conj (ring_taken hulled) (conj ring_limited (conj ring_box (conj (ring_below hulled) (ring_not hulled)))))))). Qed.
(** So a hole in a macro is a hole in everything below it. *)
Definition C135_exposure_claim : Prop := forall fill fc s mir l ms b, sensible fill -> 0 < s -> definitions_ok [] l -> image fc [] l = Some ms ->
  Forall drawn_mark ms -> Forall (fun m => macro_stamp m -> dark_mark m = true) ms -> limited (zq 1000000) (x_coords l ++ y_coords l) -> coordinate_box l b ->
  exists img, render_statements fill fc s false mir l = Ok img /\ forall p, inside b p -> below_tops fill s ms p -> (img (pixel s b mir p) <-> shows fill ms p).
Theorem C135_exposure_refuted : ~ C135_exposure_claim.
Proof. exact (fun C => ring_image_wrong (fun fill Se => C fill fc0 10 false _ _ _ Se ltac:(lra) ring_ok ring_image ring_drawn ring_dark ring_limited ring_box)). Qed.
Print Assumptions C135_exposure_refuted.
(** A flashed macro: a circle and a centre line. *)
Example C135_ex_macro : definitions_ok [] key_file /\ image fc0 [] key_file = Some [ShowExamples.dot (GerberEval.ShMacro key_values) 10 10 Dark] /\
  Forall fair [ShowExamples.dot (GerberEval.ShMacro key_values) 10 10 Dark] /\ limited (zq 1000000) (x_coords key_file ++ y_coords key_file) /\ coordinate_box key_file ((0, 20), (0, 20)) /\
  inside ((0, 20), (0, 20)) (12, 10) /\ below_tops hulled 10 [ShowExamples.dot (GerberEval.ShMacro key_values) 10 10 Dark] (12, 10) /\ shows hulled [ShowExamples.dot (GerberEval.ShMacro key_values) 10 10 Dark] (12, 10).
Proof. exact (conj key_ok (conj key_image (conj key_fair (conj key_limited (conj key_box (key_shown hulled)))))). Qed.
(** A sensible rule; a file with a bar drawn with a rectangle and a region with a clear dot. *)
Example C135_ex_rule : sensible hulled.
Proof. exact hulled_sensible. Qed.
Example C135_ex_file : definitions_ok [] bar_file /\ image fc0 [] bar_file = Some bar_marks /\ Forall fair bar_marks /\
  limited (zq 1000000) (x_coords bar_file ++ y_coords bar_file) /\ coordinate_box bar_file ((0, 20), (0, 20)) /\
  inside ((0, 20), (0, 20)) (10, 1) /\ below_tops hulled 10 bar_marks (10, 1) /\ shows hulled bar_marks (10, 1) /\ ~ shows hulled bar_marks (10, 15).
Proof.
  destruct (bar_shown hulled hulled_sensible) as (A & B & C).
  exact (conj bar_ok (conj bar_image (conj bar_fair (conj bar_limited (conj bar_box (conj A (conj B (conj C (bar_hole hulled))))))))).
Qed.

(** ** C136 *)
(** Drawn inverted, as solder masks are, the image is dark where the file is not. *)
Definition C136_claim : Prop := forall fill fc s mir l ms b, sensible fill -> 0 < s -> definitions_ok [] l -> image fc [] l = Some ms -> Forall fair ms ->
  limited (zq 1000000) (x_coords l ++ y_coords l) -> coordinate_box l b ->
  exists img, render_statements fill fc s true mir l = Ok img /\
    forall p, inside b p -> below_tops fill s ms p -> (img (pixel s b mir p) <-> ~ shows fill ms p).
(** It holds for dark marks without rectangular holes and without holes in rectangles and polygons. *)
Theorem C136_inverted_partial : forall fill fc s mir l ms b, sensible fill -> 0 < s -> definitions_ok [] l -> image fc [] l = Some ms -> Forall fair ms -> Forall solid_mark ms ->
  limited (zq 1000000) (x_coords l ++ y_coords l) -> coordinate_box l b ->
  exists img, render_statements fill fc s true mir l = Ok img /\
    forall p, inside b p -> below_tops fill s ms p -> (img (pixel s b mir p) <-> ~ shows fill ms p).
Proof. exact inverted_shown. Qed.
Print Assumptions C136_inverted_partial.
(** A clear dot is removed from the inverted image too. *)
Theorem C136_refuted : ~ C136_claim.
Proof. exact (fun C => clear_dot_inverted (fun fill Se => C fill fc0 10 false _ _ _ Se ltac:(lra) clear_dot_ok clear_dot_image clear_dot_fair clear_dot_limited clear_dot_box)). Qed.
Print Assumptions C136_refuted.
Example C136_ex_solid : Forall solid_mark [ShowExamples.dot (circle 2) 0 0 Dark; ShowExamples.dot (circle 2) 10 10 Dark].
Proof.
  apply Forall_cons; [|apply Forall_cons; [|apply Forall_nil]]; (split; [reflexivity|]); cbn [ShowExamples.dot GerberEval.o_shape circle]; left; rewrite real_0; lra.
Qed.
