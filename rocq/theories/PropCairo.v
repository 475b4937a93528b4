(** Images of layers. *)
From Coq Require Import Lra.
From Verif Require Import PyBase GeomModel GeomSpec GeomProofs CairoModel CairoSpec CairoProofs CairoLayer CairoMore CairoScale.
Import ListNotations.
Open Scope R_scope.
Open Scope list_scope.

(** ** C101 *)
(** The image of a layer is dark at exactly the points at which the layer is, with [s] pixels per unit.  [fill] is the rule for the inside of
    a contour: any rule which does not depend on the scale will do. *)
Definition C101_claim : Prop := forall fill b s mir l, filling fill -> 0 < s -> fst (fst b) <= snd (fst b) -> fst (snd b) <= snd (snd b) -> Forall (renderable_item fill) l ->
  exists img, render_layer fill (set_bounds s b false mir) l = Ok img /\ forall p, inside b p -> (img (pixel s b mir p) <-> layer_shows fill l p).
(** It holds more than a pixel below the tops of the boxes of the primitives which cover the point. *)
Theorem C101_layer_partial : forall fill b s mir l, filling fill -> 0 < s -> fst (fst b) <= snd (fst b) -> fst (snd b) <= snd (snd b) -> Forall (renderable_item fill) l ->
  exists img, render_layer fill (set_bounds s b false mir) l = Ok img /\
  forall p, inside b p -> below_top fill s l p -> (img (pixel s b mir p) <-> layer_shows fill l p).
Proof. exact layer_ok. Qed.
Print Assumptions C101_layer_partial.
(** The last, incomplete, row of pixels is cut off. *)
Theorem C101_top_refuted : ~ C101_claim.
Proof. exact top_refuted. Qed.
Print Assumptions C101_top_refuted.
(** Nothing is drawn beyond the bounds. *)
Theorem C101_bounds : forall fill b s inv mir l img p, 0 < s -> fst (fst b) <= snd (fst b) -> fst (snd b) <= snd (snd b) ->
  render_layer fill (set_bounds s b inv mir) l = Ok img -> img (pixel s b mir p) -> inside b p.
Proof. exact in_bounds. Qed.
Print Assumptions C101_bounds.
(** A rule for the inside of contours; a block with a hole in it, a clear dot on it and a macro. *)
Example C101_ex_filling : filling between.
Proof. exact between_filling. Qed.
Example C101_ex_layer : Forall (renderable_item between) picture /\
  inside ten (4, 4) /\ below_top between 1 picture (4, 4) /\ layer_shows between picture (4, 4) /\
  inside ten middle /\ below_top between 1 picture middle /\ ~ layer_shows between picture middle.
Proof. exact (picture_ok between). Qed.

(** ** C102 *)
(** The image of a layer drawn inverted is dark where the layer is not. *)
Definition C102_claim : Prop := forall fill b s mir l, filling fill -> 0 < s -> fst (fst b) <= snd (fst b) -> fst (snd b) <= snd (snd b) -> Forall (renderable_item fill) l ->
  exists img, render_layer fill (set_bounds s b true mir) l = Ok img /\ forall p, inside b p -> below_top fill s l p -> (img (pixel s b mir p) <-> ~ layer_shows fill l p).
(** It holds for layers of dark shapes whose holes, if any, are round holes in circles and obrounds. *)
Theorem C102_inverted_partial : forall fill b s mir l, filling fill -> 0 < s -> fst (fst b) <= snd (fst b) -> fst (snd b) <= snd (snd b) -> Forall (invertible_item fill) l ->
  exists img, render_layer fill (set_bounds s b true mir) l = Ok img /\
  forall p, inside b p -> below_top fill s l p -> (img (pixel s b mir p) <-> ~ layer_shows fill l p).
Proof. exact inverted_ok. Qed.
Print Assumptions C102_inverted_partial.
(** Clear shapes do not become dark again, and neither do the holes of rectangles. *)
Theorem C102_clear_refuted : forall fill, exists l img, Forall (renderable_item fill) l /\ render_layer fill (set_bounds 1 ten true false) l = Ok img /\
  below_top fill 1 l middle /\ ~ layer_shows fill l middle /\ ~ img (pixel 1 ten false middle).
Proof. exact inverted_clear_refuted. Qed.
Print Assumptions C102_clear_refuted.
Theorem C102_hole_refuted : forall fill, exists l img, Forall (renderable_item fill) l /\ render_layer fill (set_bounds 1 ten true false) l = Ok img /\
  below_top fill 1 l middle /\ ~ layer_shows fill l middle /\ ~ img (pixel 1 ten false middle) /\ Forall (fun d => dark d = true) (flat_map parts l).
Proof. exact inverted_hole_refuted. Qed.
Print Assumptions C102_hole_refuted.
Example C102_ex_inverted : Forall (invertible_item between) (one_block true 0) /\ layer_shows between (one_block true 0) middle /\ ~ layer_shows between (one_block true 0) (1, 1) /\ inside ten (1, 1).
Proof. exact (one_block_ok between). Qed.

(** ** C103 *)
(** On its own surface a primitive covers its shape, at the context's scale. *)
Theorem C103_shape_partial : forall fill b s inv mir d p, filling fill -> 0 < s -> simple p -> (inv = false /\ (d = true \/ removable p) \/ solid p) ->
  exists l, mask fill (set_bounds s b inv mir) d p = Ok l /\ forall v, drawing l (magnify s v) <-> prim_shape fill p v.
Proof. exact shape_ok. Qed.
Print Assumptions C103_shape_partial.
(** Not for the holes of clear rectangles and polygons: what is under the hole is removed as well. *)
Theorem C103_clear_hole_refuted : forall fill, exists img, render_layer fill (set_bounds 1 ten false false) [Single (block true 0); Single (block false 2)] = Ok img /\
  layer_shows fill [Single (block true 0); Single (block false 2)] middle /\ ~ img (pixel 1 ten false middle).
Proof. exact clear_hole. Qed.
Print Assumptions C103_clear_hole_refuted.
(** Not for rectangles which are turned. *)
Theorem C103_turned_refuted : forall fill, exists img, render_layer fill (set_bounds 1 ten false false) [Single turned_block] = Ok img /\ encloses (bbox turned_block) (prim_shape fill (what turned_block)) /\
  below_top fill 1 [Single turned_block] upper /\ layer_shows fill [Single turned_block] upper /\ ~ img (pixel 1 ten false upper).
Proof. exact turned_refuted. Qed.
Print Assumptions C103_turned_refuted.
(** Not for contours without points: they are errors. *)
Theorem C103_empty_refuted : forall fill c d, mask fill c d (PHull []) = Err IndexError /\ mask fill c d (PRegion []) = Err IndexError.
Proof. exact empty_contour. Qed.
Print Assumptions C103_empty_refuted.
Example C103_ex_shapes : simple (PRect (5, 5) 4 4 0 2 1 1) /\ simple (PObround (0, 0) 2 4 0 1 0 0) /\ simple (PHull [(0, 0); (1, 0); (0, 1)]) /\ simple (PRegion [SLine (0, 0) (1, 0); SLine (1, 0) (0, 1); SLine (0, 1) (0, 0)]).
Proof. exact shapes_simple. Qed.

(** ** C104 *)
(** Full circles: an arc which ends where it starts, in multi quadrant mode.  All points of the layer are dark in the image. *)
Definition C104_claim : Prop := forall fill b s mir d a w r f, filling fill -> 0 < s -> fst (fst b) <= snd (fst b) -> fst (snd b) <= snd (snd b) -> dark d = true -> what d = PArc a w -> 0 < w ->
  arc_is a r f (2 * PI) -> a_quad a = MultiQuadrant -> encloses (bbox d) (prim_shape fill (what d)) ->
  exists img, render_layer fill (set_bounds s b false mir) [Single d] = Ok img /\ forall p, inside b p -> below_top fill s [Single d] p -> on_arc a p -> img (pixel s b mir p).
(** It holds counterclockwise, if the pen is not much thinner than the circle; and nothing else is dark. *)
Theorem C104_counterclockwise_partial : forall fill s b mir d a w r f img, 0 < s -> fst (fst b) <= snd (fst b) -> fst (snd b) <= snd (snd b) -> dark d = true -> what d = PArc a w -> 0 < w ->
  arc_is a r f (2 * PI) -> a_quad a = MultiQuadrant -> a_dir a = Counterclockwise ->
  render_layer fill (set_bounds s b false mir) [Single d] = Ok img -> forall p, inside b p ->
  (img (pixel s b mir p) -> layer_shows fill [Single d] p) /\
  (r * 4 / 1000000000 <= w -> encloses (bbox d) (prim_shape fill (what d)) -> below_top fill s [Single d] p -> on_arc a p -> img (pixel s b mir p)).
Proof. exact counterclockwise_layer. Qed.
Print Assumptions C104_counterclockwise_partial.
(** Clockwise, no full circle is drawn: only a dot where it starts. *)
Theorem C104_dot_refuted : forall fill s b mir d a w r f img, 0 < s -> fst (fst b) <= snd (fst b) -> fst (snd b) <= snd (snd b) -> dark d = true -> what d = PArc a w -> 0 < w ->
  arc_is a r f (2 * PI) -> a_quad a = MultiQuadrant -> a_dir a = Clockwise ->
  render_layer fill (set_bounds s b false mir) [Single d] = Ok img -> forall p, inside b p -> img (pixel s b mir p) ->
  Rabs (fst p - fst (a_start a)) <= w / 2 + r / 1000000000 /\ Rabs (snd p - snd (a_start a)) <= w / 2 + r / 1000000000.
Proof. exact clockwise_layer. Qed.
Print Assumptions C104_dot_refuted.
Theorem C104_clockwise_refuted : ~ C104_claim.
Proof. exact full_circle_refuted. Qed.
Print Assumptions C104_clockwise_refuted.
(** A region with a full circle as its contour is lost: nothing is filled. *)
Theorem C104_region_refuted : forall fill s b mir d a r f img, filling fill -> 0 < s -> fst (fst b) <= snd (fst b) -> fst (snd b) <= snd (snd b) -> dark d = true -> what d = PRegion [SArc a] ->
  arc_is a r f (2 * PI) -> render_layer fill (set_bounds s b false mir) [Single d] = Ok img -> forall p, inside b p -> img (pixel s b mir p) -> fill [] p.
Proof. exact region_layer. Qed.
Print Assumptions C104_region_refuted.
Example C104_ex_nothing : forall p, ~ between [] p.
Proof. exact between_nothing. Qed.
Example C104_ex_ring : forall d, arc_is (ring d) 1 0 (2 * PI) /\ encloses (bbox (ring_drawn d)) (prim_shape between (what (ring_drawn d))) /\ on_arc (ring d) (4, 5) /\ 1 * 4 / 1000000000 <= 1 / 10.
Proof. exact (ring_ok between). Qed.
Example C104_ex_region : forall d, layer_shows between [Single (disc_drawn d)] (5, 5).
Proof. exact disc_shows. Qed.

(** ** C105 *)
(** A macro is drawn as one picture with the polarity of the flash: C101 for all layers with macros. *)
Definition C105_claim : Prop := forall fill b s mir l, filling fill -> 0 < s -> fst (fst b) <= snd (fst b) -> fst (snd b) <= snd (snd b) -> Forall (renderable fill) (flat_map parts l) ->
  exists img, render_layer fill (set_bounds s b false mir) l = Ok img /\ forall p, inside b p -> below_top fill s l p -> (img (pixel s b mir p) <-> layer_shows fill l p).
(** What is drawn instead: the parts one after the other, as if they were flashes of their own. *)
Theorem C105_parts_partial : forall fill b s mir l, filling fill -> 0 < s -> fst (fst b) <= snd (fst b) -> fst (snd b) <= snd (snd b) -> Forall (renderable fill) (flat_map parts l) ->
  exists img, render_layer fill (set_bounds s b false mir) l = Ok img /\
  forall p, inside b p -> below_top fill s l p -> (img (pixel s b mir p) <-> layer_shows fill (map Single (flat_map parts l)) p).
Proof. exact parts_ok. Qed.
Print Assumptions C105_parts_partial.
(** A macro flashed clear stays dark. *)
Theorem C105_clear_refuted : forall fill, exists img, render_layer fill (set_bounds 1 ten false false) [Single (block true 0); Group false [block true 0; block true 0]] = Ok img /\
  ~ layer_shows fill [Single (block true 0); Group false [block true 0; block true 0]] middle /\ img (pixel 1 ten false middle).
Proof. exact clear_macro. Qed.
Print Assumptions C105_clear_refuted.
(** Parts with the exposure off remove what is under the macro. *)
Theorem C105_exposure_refuted : forall fill, exists img, render_layer fill (set_bounds 1 ten false false) [Single (block true 0); Group true [block true 0; block false 0]] = Ok img /\
  layer_shows fill [Single (block true 0); Group true [block true 0; block false 0]] middle /\ ~ img (pixel 1 ten false middle).
Proof. exact exposure_off. Qed.
Print Assumptions C105_exposure_refuted.
Theorem C105_refuted : ~ C105_claim.
Proof. exact macros_refuted. Qed.
Print Assumptions C105_refuted.
Example C105_ex_parts : Forall (renderable between) (flat_map parts [Single (block true 0); Group true [block true 0; block false 0]]).
Proof. exact (macro_parts between). Qed.

(** ** C106 *)
(** The image of several layers is no larger than asked for. *)
Theorem C106_fits : forall b l mw mh inv mir c, layers_context (Some b :: l) mw mh inv mir = Ok c -> 0 <= mw -> 0 <= mh -> fst (fst b) <= snd (fst b) -> fst (snd b) <= snd (snd b) ->
  c = set_bounds (scale c) b inv mir /\ 0 <= scale c /\ fst (size_px c) <= mw /\ snd (size_px c) <= mh.
Proof. exact layers_fit. Qed.
Print Assumptions C106_fits.
(** No larger whole number of pixels per unit would do: if the box [m] has room for all layers and fits with [k] pixels per unit, there are at least [k]. *)
Theorem C106_largest : forall l mw mh inv mir c m k, layers_context l mw mh inv mir = Ok c -> 0 < mw -> 0 < mh ->
  (forall b, In (Some b) l -> within (fst b) (fst m) /\ within (snd b) (snd m) /\ fst (fst b) <= snd (fst b) /\ fst (snd b) <= snd (snd b)) ->
  -10000 <= fst (fst m) -> snd (fst m) <= 10000 -> -10000 <= fst (snd m) -> snd (snd m) <= 10000 -> (exists b, In (Some b) l) ->
  (0 <= k)%Z -> IZR k * (snd (fst m) - fst (fst m)) <= mw -> IZR k * (snd (snd m) - fst (snd m)) <= mh -> IZR k <= scale c.
Proof. exact layers_largest. Qed.
Print Assumptions C106_largest.
(** The image shows all of every layer: false.  The layers are cut to the bounds of the first. *)
Definition C106_claim : Prop := forall fill b b' mw mh c l img p, filling fill -> layers_context [Some b; Some b'] mw mh false false = Ok c -> 0 < scale c ->
  Forall (renderable_item fill) l -> render_layer fill c l = Ok img -> inside b' p -> below_top fill (scale c) l p -> layer_shows fill l p -> img (pixel (scale c) b false p).
Theorem C106_cut_off_refuted : ~ C106_claim.
Proof. exact layers_refuted. Qed.
Print Assumptions C106_cut_off_refuted.
(** Within the bounds of the first, all layers are shown. *)
Theorem C106_first_partial : forall fill b l mw mh mir c items, filling fill -> layers_context (Some b :: l) mw mh false mir = Ok c -> 0 <= mw -> 0 <= mh -> fst (fst b) <= snd (fst b) -> fst (snd b) <= snd (snd b) ->
  0 < scale c -> Forall (renderable_item fill) items -> exists img, render_layer fill c items = Ok img /\ forall p,
  (inside b p -> below_top fill (scale c) items p -> (img (pixel (scale c) b mir p) <-> layer_shows fill items p)) /\ (img (pixel (scale c) b mir p) -> inside b p).
Proof. exact first_layer. Qed.
Print Assumptions C106_first_partial.
(** A board wider than the image has pixels, as with large numbers of millimetres, has an empty image. *)
Theorem C106_wide_refuted : forall b l mw mh inv mir c, layers_context (Some b :: l) mw mh inv mir = Ok c -> 0 <= mw -> 0 <= mh -> fst (fst b) <= snd (fst b) -> fst (snd b) <= snd (snd b) ->
  mw < snd (fst b) - fst (fst b) -> size_px c = (0, 0).
Proof. exact too_wide. Qed.
Print Assumptions C106_wide_refuted.
Example C106_ex_context : layers_context [Some ten; None; Some ((0, 20), (0, 10))] 25 20 false false = Ok (set_bounds 1 ten false false).
Proof. exact two_layers. Qed.
