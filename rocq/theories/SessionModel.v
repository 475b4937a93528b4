(** Model of a GerberCairoContext in use: the methods of gerber/render/cairo_backend.py:38-200, 533-566, 615-616, the
    settings of gerber/render/render.py:62-136 and CamFile.render (gerber/cam.py:263-286), called one after another.
    What a single layer looks like is the subject of CairoModel, which theme settings are taken that of ThemeModel. *)
From Verif Require Import PyBase QcLib ThemeModel LayersModel.
Open Scope list_scope.
Open Scope Qc_scope.

Definition point := (Qc * Qc)%type.
Definition box := (point * point)%type.
(** cairo_backend.py:40-52: what a picture of a layer depends on besides the layer and its settings *)
Record geometry := mkGeometry { g_scale : Qc; g_origin : point; g_size : point }.

Section Session.
(** Points of an image.  What can be drawn (a CamFile, or a PCBLayer with its primitives), with layer.bounds
    (layers.py:231-236: None for drill files) and bounding_box (an exception for files where it fails).  [drawing]:
    how much of each point the layer covers, or the exception of a primitive which cannot be drawn, for a geometry,
    invert and mirror (CairoModel).  [scale_for]: cairo_backend.py:107-121 (CairoModel.layers_scale).  [document]: the
    text of the SVG document cairo makes. *)
Variable P : Type.
Variable source : Type.
Variable bounds_of : source -> option box.
Variable box_of : source -> res box.
Variable drawing : geometry -> bool -> bool -> source -> res (P -> Qc).
Variable scale_for : list source -> res Qc.
Definition picture := P -> pixel.
Variable document : point -> picture -> text.

(** The surface (75-76) with its size in pixels, what has been painted on it, whether finish() has been called, and the
    temporary file with the position in it. *)
Record surface := mkSurface { sf_size : point; sf_picture : picture; sf_finished : bool; sf_text : text; sf_position : nat }.
(** The attributes of the context: cairo_backend.py:40-52 and render.py:62-69.  Simplifications: output_ctx is there when
    surface is; _xform_matrix is computed from origin and size; ctx, active_layer and active_matrix are set by every
    new_render_layer (544-549) before they are used; units and drill_color are never used for drawing. *)
Record context := mkContext {
  scale : Qc; origin : option point; size : option point; surf : option surface; has_bg : bool; count : nat;
  color_ : color; alpha : Qc; background : color; inverted : bool }.
(** GerberCairoContext(scale) *)
Definition new_context (s : Qc) : context := mkContext s None None None false 0 (Q2Qc (7215 # 10000), mil 451, mil 200) 1 (0, 0, 0) false.

(** Statements of python: the state after them, and the value or the exception. *)
Definition action (A : Type) := context -> context * res A.
Definition ret {A} (a : A) : action A := fun c => (c, Ok a).
Definition raise {A} (e : exn) : action A := fun c => (c, Err e).
Definition andthen {A B} (m : action A) (f : A -> action B) : action B :=
  fun c => match m c with (c, Ok a) => f a c | (c, Err e) => (c, Err e) end.
Definition update (f : context -> context) : action unit := fun c => (f c, Ok tt).
Definition get {A} (f : context -> A) : action A := fun c => (c, Ok (f c)).
Definition lift {A} (r : res A) : action A := fun c => (c, r).
Notation "'let!' x <- m ; k" := (andthen m (fun x => k)) (at level 200, x pattern, m at level 100, k at level 200).

Definition with_surface (s : option surface) (c : context) : context :=
  mkContext (scale c) (origin c) (size c) s (has_bg c) (count c) (color_ c) (alpha c) (background c) (inverted c).
(** render.py:87-91, 113-117: a tuple of three numbers from 0 to 1 *)
Definition check_color (l : list Qc) : res color :=
  match l with
  | [r; g; b] => if existsb (fun x => qclt x 0 || qclt 1 x) l then Err ValueError else Ok (r, g, b)
  | _ => Err TypeError
  end.
(** render.py:85-92 *)
Definition set_color (l : list Qc) : action unit :=
  let! k <- lift (check_color l);
  update (fun c => mkContext (scale c) (origin c) (size c) (surf c) (has_bg c) (count c) k (alpha c) (background c) (inverted c)).
(** render.py:111-118 *)
Definition set_background (l : list Qc) : action unit :=
  let! k <- lift (check_color l);
  update (fun c => mkContext (scale c) (origin c) (size c) (surf c) (has_bg c) (count c) (color_ c) (alpha c) k (inverted c)).
(** render.py:124-128 *)
Definition set_alpha (a : Qc) : action unit :=
  if qclt a 0 || qclt 1 a then raise ValueError
  else update (fun c => mkContext (scale c) (origin c) (size c) (surf c) (has_bg c) (count c) (color_ c) a (background c) (inverted c)).
(** render.py:134-136 *)
Definition set_invert (b : bool) : action unit :=
  update (fun c => mkContext (scale c) (origin c) (size c) (surf c) (has_bg c) (count c) (color_ c) (alpha c) (background c) b).

(** cairo_backend.py:615-616 *)
Definition scale_point (c : context) (p : point) : point := (fst p * scale c, snd p * scale c).
Definition distance (a b : Qc) : Qc := if qclt (a - b) 0 then - (a - b) else a - b.
(** 65-67, abs(a - b) being [distance a b] *)
Definition box_origin (b : box) : point := (fst (fst b), fst (snd b)).
Definition box_size (b : box) : point := (distance (snd (fst b)) (fst (fst b)), distance (snd (snd b)) (fst (snd b))).
Definition blank : picture := fun _ => empty_pixel.
Definition first {A} (o : option A) (a : A) : option A := match o with Some x => Some x | None => Some a end.
(** 64-77 with new_surface False, as everywhere: origin and size stay once they are set, so does the surface. *)
Definition set_bounds (b : box) : action unit :=
  update (fun c => mkContext (scale c) (first (origin c) (box_origin b)) (first (size c) (box_size b))
    (first (surf c) (mkSurface (scale_point c (box_size b)) blank false [] 0)) (has_bg c) (count c) (color_ c) (alpha c) (background c) (inverted c)).
(** set_source_rgba and paint or mask_surface on output_ctx: 554-555, 565-566 (channels from 0 to 1; cairo cuts others off).  On a finished surface cairo raises
    cairo.Error, for which the model has GenericException. *)
Definition paint (k : color) (a : Qc) (m : P -> Qc) : action unit :=
  let! s <- get surf;
  match s with
  | None => raise AttributeError
  | Some s =>
      if sf_finished s then raise GenericException
      else update (with_surface (Some (mkSurface (sf_size s) (fun p => over k (a * m p) (sf_picture s p)) false (sf_text s) (sf_position s))))
  end.
(** 560-566 *)
Definition set_has_bg (b : bool) (c : context) : context :=
  mkContext (scale c) (origin c) (size c) (surf c) b (count c) (color_ c) (alpha c) (background c) (inverted c).
Definition paint_background (s : option settings) : action unit :=
  let! k <- get (fun c => match s with Some s => s_color s | None => background c end);
  let a := match s with Some s => s_alpha s | None => 1 end in
  let! done <- get has_bg;
  if (done : bool) then ret tt else let! _ <- update (set_has_bg true); paint k a (fun _ => 1).
(** 533-549 and the primitives (196-198; cam.py:281-282): scale_point(None) is a TypeError. *)
Definition draw (mirror : bool) (x : source) : action (P -> Qc) :=
  let! o <- get origin;
  let! z <- get size;
  let! s <- get scale;
  let! i <- get inverted;
  match o, z with Some o, Some z => lift (drawing (mkGeometry s o z) i mirror x) | _, _ => raise TypeError end.
(** 166-174 *)
Definition clear : action unit :=
  update (fun c => mkContext (scale c) None None None false 0 (color_ c) (alpha c) (background c) (inverted c)).
(** 193-200 *)
Definition draw_layer (x : source) (s : settings) : action unit :=
  let! _ <- set_invert (s_invert s);
  let! m <- draw (s_mirror s) x;
  paint (s_color s) (s_alpha s) m.

(** What is written: an image in a file, or bytes that are returned.  A PNG image is the picture with its size; an SVG
    image is a text. *)
Inductive output := Png (file : option text) (z : point) (p : picture) | Svg (file : option text) (t : text).
(** surface.finish(): the document is written to the file, once. *)
Definition finished (s : surface) : surface :=
  if sf_finished s then s
  else let t := document (sf_size s) (sf_picture s) in mkSurface (sf_size s) (sf_picture s) true (sf_text s ++ t) (List.length (sf_text s ++ t)).
(** 133-150 dump.  The extension: os.path.splitext of the name in small letters. *)
Definition is_svg (file : text) : bool := teq (snd (splitext (basename (lower file)))) (T ".svg").
Definition write_png (file : option text) : action (list output) :=
  let! s <- get surf;
  match s with
  | None => raise AttributeError
  | Some s => if sf_finished s then raise GenericException else ret [Png file (sf_size s) (sf_picture s)]
  end.
Definition dump (file : text) : action (list output) :=
  if is_svg file then
    let! s <- get surf;
    match s with
    | None => raise AttributeError
    | Some s => let s := finished s in
        let! _ <- update (with_surface (Some (mkSurface (sf_size s) (sf_picture s) true (sf_text s) (List.length (sf_text s)))));
        ret [Svg (Some file) (sf_text s)]
    end
  else write_png (Some file).
Definition dump_maybe (file : option text) : action (list output) := match file with Some f => dump f | None => ret [] end.
(** 152-157 *)
Definition dump_str : action (list output) := write_png None.
(** 159-164: reads from where the writing ended. *)
Definition dump_svg_str : action (list output) :=
  let! s <- get surf;
  match s with
  | None => raise AttributeError
  | Some s => let s := finished s in
      let! _ <- update (with_surface (Some (mkSurface (sf_size s) (sf_picture s) true (sf_text s) (List.length (sf_text s)))));
      ret [Svg None (skipn (sf_position s) (sf_text s))]
  end.

Definition counted (c : context) : context :=
  mkContext (scale c) (origin c) (size c) (surf c) (has_bg c) (S (count c)) (color_ c) (alpha c) (background c) (inverted c).
(** 79-100, the settings given (79-84 otherwise take those of the default theme). *)
Definition render_layer (x : source) (s bg : settings) (bounds : option box) (file : option text) : action (list output) :=
  let! n <- get count;
  let! _ <- (if (n =? 0)%nat then
    let! _ <- clear;
    let! _ <- (match bounds with Some b => set_bounds b | None => match bounds_of x with Some b => set_bounds b | None => raise TypeError end end);
    paint_background (Some bg)
  else ret tt);
  let! _ <- update counted;
  let! _ <- draw_layer x s;
  dump_maybe file.
Fixpoint render_each (ls : list (source * settings)) (bg : settings) : action unit :=
  match ls with
  | [] => ret tt
  | (x, s) :: ls => let! _ <- render_layer x s bg None None; render_each ls bg
  end.
Definition set_scale (s : Qc) (c : context) : context :=
  mkContext s (origin c) (size c) (surf c) (has_bg c) (count c) (color_ c) (alpha c) (background c) (inverted c).
(** 102-131, the layers with the settings the theme has for them. *)
Definition render_layers (ls : list (source * settings)) (bg : settings) (file : text) : action (list output) :=
  let! s <- lift (scale_for (map fst ls));
  let! _ <- update (set_scale s);
  let! _ <- clear;
  let! _ <- render_each ls bg;
  dump file.
(** cam.py:263-286 with a context *)
Definition render_file (x : source) (invert : bool) (file : option text) : action (list output) :=
  let! b <- lift (box_of x);
  let! _ <- set_bounds b;
  let! _ <- paint_background None;
  let! _ <- set_invert invert;
  let! m <- draw false x;
  let! k <- get color_;
  let! a <- get alpha;
  let! _ <- paint k a m;
  dump_maybe file.

(** What one can do with a context *)
Inductive op :=
| SetColor (l : list Qc) | SetAlpha (a : Qc) | SetBackground (l : list Qc) | SetInvert (b : bool)
| Clear | RenderLayer (x : source) (s bg : settings) (bounds : option box) (file : option text)
| RenderLayers (ls : list (source * settings)) (bg : settings) (file : text)
| RenderFile (x : source) (invert : bool) (file : option text)
| Dump (file : text) | DumpStr | DumpSvgStr.
Definition silent (m : action unit) : action (list output) := let! _ <- m; ret [].
Definition run (o : op) : action (list output) :=
  match o with
  | SetColor l => silent (set_color l) | SetAlpha a => silent (set_alpha a) | SetBackground l => silent (set_background l)
  | SetInvert b => silent (set_invert b) | Clear => silent clear
  | RenderLayer x s bg b f => render_layer x s bg b f
  | RenderLayers ls bg f => render_layers ls bg f
  | RenderFile x i f => render_file x i f
  | Dump f => dump f | DumpStr => dump_str | DumpSvgStr => dump_svg_str
  end.
(** One after another; an exception of one does not keep the caller from doing the next. *)
Fixpoint run_all (l : list op) (c : context) : context * list (res (list output)) :=
  match l with
  | [] => (c, [])
  | o :: l => let (c, r) := run o c in let (c, rs) := run_all l c in (c, r :: rs)
  end.
End Session.
