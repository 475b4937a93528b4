(** Properties C141-C145: drawing contexts which are used more than once. *)
From Verif Require Import PyBase QcLib ThemeModel ThemeSpec SessionModel SessionSpec SessionProofs SessionDraw SessionDump SessionExamples SvgSpec SvgProofs.
Open Scope list_scope.
Open Scope Qc_scope.

Section Properties.
(** Whatever the points of an image, the layers, their bounds, what they look like, the scale chosen for a board and the
    text of an SVG document are. *)
Variable P : Type.
Variable source : Type.
Variable bounds_of : source -> option box.
Variable box_of : source -> res box.
Variable drawing : geometry -> bool -> bool -> source -> res (P -> Qc).
Variable scale_for : list source -> res Qc.
Variable document : point -> picture P -> text.
Notation context := (context P).
Notation run := (run P source bounds_of box_of drawing scale_for document).
Notation run_all := (run_all P source bounds_of box_of drawing scale_for document).
Notation Png := (Png P).
Notation Svg := (Svg P).

(** ** C141: render_layers gives the same result whatever the context has been used for *)
Theorem C141_boards_on_used_contexts : forall ls bg f (c c' : context),
  snd (run (RenderLayers source ls bg f) c) = snd (run (RenderLayers source ls bg f) c').
Proof. exact (layers_anywhere P source bounds_of box_of drawing scale_for document). Qed.
(** and what comes after it does not depend on it either, as long as the colours set are the same. *)
Theorem C141_from_then_on : forall ls bg f l (c c' : context) s, scale_for (map fst ls) = Ok s ->
  color_ P c = color_ P c' -> alpha P c = alpha P c' -> background P c = background P c' ->
  snd (run_all (RenderLayers source ls bg f :: l) c) = snd (run_all (RenderLayers source ls bg f :: l) c').
Proof. exact (layers_onwards P source bounds_of box_of drawing scale_for document). Qed.

(** ** C142: rendering a file gives the same image whatever the context has been used for *)
Definition reuse_claim : Prop := forall s x i y j,
  snd (run_all [RenderFile source x i None; RenderFile source y j None; DumpStr source] (new_context P s)) =
  Ok [] :: snd (run_all [RenderFile source y j None; DumpStr source] (new_context P s)).
(** After clear() everything is as on a context which has not been used, with the scale and the colours it has by then. *)
Theorem C142_after_clear_partial : forall l (c : context), snd (run_all (Clear source :: l) c) = Ok [] :: snd (run_all l (unused c)).
Proof. exact (start_over P source bounds_of box_of drawing scale_for document). Qed.
(** Without it, all files are drawn over each other, in the box of the first. *)
Theorem C142_files_stacked : forall (c : context) x i x0 x1 y0 y1 xs m ms, let g := mkGeometry (scale P c) (x0, y0) (x1 - x0, y1 - y0) in
  x0 <= x1 -> y0 <= y1 -> box_of x = Ok ((x0, x1), (y0, y1)) -> drawing g i false x = Ok m ->
  Forall2 (fun y m => (exists b, box_of (fst y) = Ok b) /\ drawing g (snd y) false (fst y) = Ok m) xs ms ->
  exists im, snd (run_all (Clear source :: map (fun y => RenderFile source (fst y) (snd y) None) ((x, i) :: xs) ++ [DumpStr source]) c) =
    Ok [] :: map (fun _ => Ok []) ((x, i) :: xs) ++ [Ok [Png None ((x1 - x0) * scale P c, (y1 - y0) * scale P c) im]] /\
    forall p, mixed ((background P c, 1) :: map (fun m : P -> Qc => (color_ P c, alpha P c * m p)) (m :: ms)) (im p).
Proof. intros c x i x0 x1 y0 y1 xs m ms. exact (files_laid P source bounds_of box_of drawing scale_for document c x i x0 x1 y0 y1 xs m ms). Qed.

(** ** C143: saving an image leaves the context as it is *)
Definition saving_claim : Prop := forall s l f l',
  let c := fst (run_all l (new_context P s)) in snd (run_all l' (fst (run (Dump source f) c))) = snd (run_all l' c).
Theorem C143_png_partial : forall f (c : context), ~ svg_name f -> fst (run (Dump source f) c) = c.
Proof. intros f c N. exact (png_harmless P source bounds_of box_of drawing scale_for document f c (proj1 (not_svg_name f) N)). Qed.
Theorem C143_str_partial : forall c : context, fst (run (DumpStr source) c) = c.
Proof. exact (str_harmless P source bounds_of box_of drawing scale_for document). Qed.
(** All ways of saving save the same image, *)
Theorem C143_same_image : forall s l f z im, let c := fst (run_all l (new_context P s)) in snd (run (DumpStr source) c) = Ok [Png None z im] ->
  (svg_name f -> snd (run (Dump source f) c) = Ok [Svg (Some f) (document z im)]) /\ (~ svg_name f -> snd (run (Dump source f) c) = Ok [Png (Some f) z im]).
Proof.
  intros s l f z im c H. split; intros S; [apply is_svg_name in S; exact (svg_same P source bounds_of box_of drawing scale_for document s l f z im S H)|].
  apply not_svg_name in S. rewrite (png_same P source bounds_of box_of drawing scale_for document f c S), H. reflexivity.
Qed.
(** but an SVG image can only be followed by copies of it: *)
Theorem C143_svg_again : forall f g (c : context) o, svg_name f -> svg_name g -> snd (run (Dump source f) c) = Ok o ->
  exists t, o = [Svg (Some f) t] /\ snd (run (Dump source g) (fst (run (Dump source f) c))) = Ok [Svg (Some g) t].
Proof. intros f g c o F G. exact (svg_again P source bounds_of box_of drawing scale_for document f g c o (proj2 (is_svg_name f) F) (proj2 (is_svg_name g) G)). Qed.
(** no PNG images, *)
Theorem C143_svg_then_png : forall f (c : context) o, svg_name f -> snd (run (Dump source f) c) = Ok o ->
  snd (run (DumpStr source) (fst (run (Dump source f) c))) = Err GenericException.
Proof. intros f c o S H. exact (closed_png P source bounds_of box_of drawing scale_for document _ (svg_closes P source bounds_of box_of drawing scale_for document f c o (proj2 (is_svg_name f) S) H)). Qed.
(** no other files, *)
Theorem C143_svg_then_file : forall f (c : context) o x i f' o', svg_name f -> snd (run (Dump source f) c) = Ok o ->
  snd (run (RenderFile source x i f') (fst (run (Dump source f) c))) <> Ok o'.
Proof. intros f c o x i f' o' S H. exact (closed_file P source bounds_of box_of drawing scale_for document _ x i f' o' (svg_closes P source bounds_of box_of drawing scale_for document f c o (proj2 (is_svg_name f) S) H)). Qed.
(** and no other layers after a layer saved as SVG. *)
Theorem C143_svg_then_layer : forall (c : context) x s bg b f o x' s' bg' b' f' o', svg_name f -> snd (run (RenderLayer source x s bg b (Some f)) c) = Ok o ->
  snd (run (RenderLayer source x' s' bg' b' f') (fst (run (RenderLayer source x s bg b (Some f)) c))) <> Ok o'.
Proof. intros c x s bg b f o x' s' bg' b' f' o' S. exact (layers_in_svgs P source bounds_of box_of drawing scale_for document c x s bg b f o x' s' bg' b' f' o' (proj2 (is_svg_name f) S)). Qed.
(** What dump_svg_str returns is always empty. *)
Theorem C143_svg_str_empty : forall s l t, snd (run (DumpSvgStr source) (fst (run_all l (new_context P s)))) = Ok [Svg None t] -> t = [].
Proof. exact (svg_str_empty P source bounds_of box_of drawing scale_for document). Qed.

(** ** C144: colours and opacity *)
Theorem C144_color : forall l (c : context),
  (forall k, three l k -> good_color k -> exists c', run (SetColor source l) c = (c', Ok []) /\ color_ P c' = k /\ alpha P c' = alpha P c /\ background P c' = background P c /\ same_canvas c c') /\
  (forall k, three l k -> ~ good_color k -> run (SetColor source l) c = (c, Err ValueError)) /\
  (List.length l <> 3%nat -> run (SetColor source l) c = (c, Err TypeError)).
Proof. exact (color_set P source bounds_of box_of drawing scale_for document). Qed.
Theorem C144_background : forall l (c : context),
  (forall k, three l k -> good_color k -> exists c', run (SetBackground source l) c = (c', Ok []) /\ background P c' = k /\ color_ P c' = color_ P c /\ alpha P c' = alpha P c /\ same_canvas c c') /\
  (forall k, three l k -> ~ good_color k -> run (SetBackground source l) c = (c, Err ValueError)) /\
  (List.length l <> 3%nat -> run (SetBackground source l) c = (c, Err TypeError)).
Proof. exact (background_set P source bounds_of box_of drawing scale_for document). Qed.
Theorem C144_alpha : forall a (c : context),
  (between01 a -> exists c', run (SetAlpha source a) c = (c', Ok []) /\ alpha P c' = a /\ color_ P c' = color_ P c /\ background P c' = background P c /\ same_canvas c c') /\
  (~ between01 a -> run (SetAlpha source a) c = (c, Err ValueError)).
Proof. exact (alpha_set P source bounds_of box_of drawing scale_for document). Qed.
(** They are within their limits at all times. *)
Theorem C144_always : forall s l, settled (fst (run_all l (new_context P s))).
Proof. intros s l. exact (always_settled P source bounds_of box_of drawing scale_for document l _ (new_settled P s)). Qed.

(** ** C145: rendering a layer adds it to the image *)
Definition adding_claim : Prop := forall s l x st bg b z im, let c := fst (run_all l (new_context P s)) in
  snd (run (DumpStr source) c) = Ok [Png None z im] -> snd (run (RenderLayer source x st bg b None) c) = Ok [] ->
  exists m im', snd (run (DumpStr source) (fst (run (RenderLayer source x st bg b None) c))) = Ok [Png None z im'] /\
    forall p, im' p = over (s_color st) (s_alpha st * m p) (im p).
(** It does after a layer, *)
Theorem C145_after_a_layer_partial : forall (c0 : context) x0 st0 bg0 b0 f0 o0 x st bg b z im, let c := fst (run (RenderLayer source x0 st0 bg0 b0 f0) c0) in
  snd (run (RenderLayer source x0 st0 bg0 b0 f0) c0) = Ok o0 ->
  snd (run (DumpStr source) c) = Ok [Png None z im] -> snd (run (RenderLayer source x st bg b None) c) = Ok [] ->
  exists m im', snd (run (DumpStr source) (fst (run (RenderLayer source x st bg b None) c))) = Ok [Png None z im'] /\
    forall p, im' p = over (s_color st) (s_alpha st * m p) (im p).
Proof.
  intros c0 x0 st0 bg0 b0 f0 o0 x st bg b z im c H. exact (layer_adds P source bounds_of box_of drawing scale_for document c x st bg b z im (layer_count P source bounds_of box_of drawing scale_for document c0 x0 st0 bg0 b0 f0 o0 H)).
Qed.
(** so that layers rendered one by one make the image render_layers makes of them, *)
Theorem C145_one_by_one : forall ls bg f o (c : context) sc, scale_for (map fst ls) = Ok sc -> scale P c = sc -> snd (run (RenderLayers source ls bg f) c) = Ok o ->
  snd (run_all (Clear source :: map (fun l => RenderLayer source (fst l) (snd l) bg None None) ls ++ [Dump source f]) c) = Ok [] :: map (fun _ => Ok []) ls ++ [Ok o].
Proof. exact (one_by_one P source bounds_of box_of drawing scale_for document). Qed.
(** which is the layers in this order on the background, in the bounds of the first layer. *)
Theorem C145_the_image : forall (c : context) x s x0 x1 y0 y1 ls m ms bg f sc, let g := mkGeometry sc (x0, y0) (x1 - x0, y1 - y0) in
  x0 <= x1 -> y0 <= y1 -> ~ svg_name f -> scale_for (x :: map fst ls) = Ok sc -> bounds_of x = Some ((x0, x1), (y0, y1)) ->
  Forall2 (fun l m => drawing g (s_invert (snd l)) (s_mirror (snd l)) (fst l) = Ok m) ((x, s) :: ls) (m :: ms) ->
  exists im, snd (run (RenderLayers source ((x, s) :: ls) bg f) c) = Ok [Png (Some f) ((x1 - x0) * sc, (y1 - y0) * sc) im] /\
    forall p, mixed ((s_color bg, s_alpha bg) :: seen P (s :: map snd ls) (m :: ms) p) (im p).
Proof. intros c x s x0 x1 y0 y1 ls m ms bg f sc g X Y S. exact (layers_laid P source bounds_of box_of drawing scale_for document c x s x0 x1 y0 y1 ls m ms bg f sc X Y (proj1 (not_svg_name f) S)). Qed.
End Properties.

(** The strips again: x from 0 to 1, then one from 5 to 7. *)
Theorem C142_refuted : ~ reuse_claim Qc strip (fun x => Some (strip_box x)) (fun x => Ok (strip_box x)) strip_drawing strip_scale strip_document.
Proof.
  intro H. specialize (H (zq 10) narrow false wide false).
  assert (E : map (fun r => match r with Ok [Png _ _ z _] => Some (this (fst z)) | _ => None end) (snd (strips [RenderFile strip narrow false None; RenderFile strip wide false None; DumpStr strip] (new_context Qc (zq 10)))) = [None; None; Some (10 # 1)%Q]) by (vm_compute; reflexivity).
  rewrite H in E. vm_compute in E. discriminate E.
Qed.
Theorem C143_refuted : ~ saving_claim Qc strip (fun x => Some (strip_box x)) (fun x => Ok (strip_box x)) strip_drawing strip_scale strip_document.
Proof.
  intro H. specialize (H (zq 10) [RenderFile strip narrow false None] (T "strip.svg") [DumpStr strip]). cbv zeta in H.
  apply (f_equal (map (fun r => match r with Ok _ => true | Err _ => false end))) in H. vm_compute in H. discriminate H.
Qed.
Theorem C145_refuted : ~ adding_claim Qc strip (fun x => Some (strip_box x)) (fun x => Ok (strip_box x)) strip_drawing strip_scale strip_document.
Proof.
  intro H. specialize (H (zq 10) [RenderFile strip narrow false None] wide copper board None). cbv zeta in H.
  edestruct H as (m & im' & E & _); [reflexivity|reflexivity|]. apply (f_equal (fun r => match r with Ok [Png _ _ z _] => Some (this (fst z)) | _ => None end)) in E. vm_compute in E. discriminate E.
Qed.

(** ** Examples *)
(** A board on a context which has been used, finished by an SVG image, and has another scale: its image is 20 by 10,
    red on the left where its layer is. *)
Definition look (r : res (list (output Qc))) (p : Qc) : option (Q * Q * (Q * Q * Q)) :=
  match r with Ok [Png _ _ z im] => Some (this (fst z), this (snd z), (this (red (fst (im p))), this (green (fst (im p))), this (blue (fst (im p))))) | _ => None end.
Definition used : context Qc := fst (strips [RenderFile strip narrow false None; Dump strip (T "a.svg")] (new_context Qc (zq 3))).
Example C141_example : look (snd (strip_run (RenderLayers strip [(wide, copper); (narrow, copper)] board (T "board.png")) used)) 1 = Some ((20 # 1)%Q, (10 # 1)%Q, ((1 # 1)%Q, 0%Q, 0%Q)).
Proof. vm_compute. reflexivity. Qed.
(** The second strip is drawn in the picture of the first, where it cannot be seen. *)
Example C142_example : map (fun r => look r (zq 5)) (snd (strips [Clear strip; SetBackground strip [0; 0; 1]; RenderFile strip narrow true None; RenderFile strip wide false None; DumpStr strip] used)) =
  [None; None; None; None; Some ((3 # 1)%Q, (3 # 1)%Q, ((1443 # 2000)%Q, (451 # 1000)%Q, (1 # 5)%Q))].
Proof. vm_compute. reflexivity. Qed.
Example C143_example : map (fun r => match r with Ok [Svg _ _ t] => Some t | _ => None end) (snd (strips [RenderFile strip wide false None; DumpSvgStr strip; Dump strip (T "A.SVG"); RenderFile strip wide false None] (new_context Qc 1))) =
  [None; Some []; Some (T "<svg></svg>"); None].
Proof. vm_compute. reflexivity. Qed.
Example C144_example : map (fun r => match r with Ok _ => None | Err e => Some e end) (snd (strips [SetColor strip [1; 0; mil 500]; SetColor strip [1; 0]; SetBackground strip [1; zq 2; 0]; SetAlpha strip (mil 1001)] used)) =
  [None; Some TypeError; Some ValueError; Some ValueError].
Proof. vm_compute. reflexivity. Qed.
(** The layer drawn after the file has taken its place, the second one is added. *)
Example C145_example : map (fun r => look r (zq 15)) (snd (strips [RenderFile strip narrow false None; DumpStr strip; RenderLayer strip wide copper board None None; DumpStr strip;
    RenderLayer strip (zq 6, zq 8) (mkSettings (0, 0, 1) (mil 500) false false) board None None; DumpStr strip] (new_context Qc (zq 10)))) =
  [None; Some ((10 # 1)%Q, (10 # 1)%Q, (0%Q, 0%Q, 0%Q)); None; Some ((20 # 1)%Q, (10 # 1)%Q, ((1 # 1)%Q, 0%Q, 0%Q)); None; Some ((20 # 1)%Q, (10 # 1)%Q, ((1 # 2)%Q, 0%Q, (1 # 2)%Q))].
Proof. vm_compute. reflexivity. Qed.

Print Assumptions C141_boards_on_used_contexts.
Print Assumptions C141_from_then_on.
Print Assumptions C142_after_clear_partial.
Print Assumptions C142_files_stacked.
Print Assumptions C142_refuted.
Print Assumptions C143_png_partial.
Print Assumptions C143_str_partial.
Print Assumptions C143_same_image.
Print Assumptions C143_svg_again.
Print Assumptions C143_svg_then_png.
Print Assumptions C143_svg_then_file.
Print Assumptions C143_svg_then_layer.
Print Assumptions C143_svg_str_empty.
Print Assumptions C143_refuted.
Print Assumptions C144_color.
Print Assumptions C144_background.
Print Assumptions C144_alpha.
Print Assumptions C144_always.
Print Assumptions C145_after_a_layer_partial.
Print Assumptions C145_one_by_one.
Print Assumptions C145_the_image.
Print Assumptions C145_refuted.

(** Names of SVG files and others *)
Example C143_names : svg_name (T "out/Board.SVG") /\ ~ svg_name (T "out/board.svg.png") /\ ~ svg_name (T "board.d/.svg").
Proof.
  split; [|split].
  - exists (T "out/"), (T "Board"), (T "SVG"). split; [reflexivity|]. split; [right; now exists (T "out")|]. split; [intros I; repeat (destruct I as [I|I]; [discriminate|]); exact I|].
    split; [exists "B"%char; split; [now left|discriminate]|]. unfold LayersSpec.same_but_case. repeat (constructor; [unfold LayersSpec.same_letter; right; cbn; tauto|]). constructor.
  - apply not_svg_name. vm_compute. reflexivity.
  - apply not_svg_name. vm_compute. reflexivity.
Qed.
