(** Model of the command gerber-render (gerber/__main__.py:71-118) with the only renderer there is
    (gerber/render/__init__.py:29-31), and of load_layer (gerber/layers.py:119-120). *)
From Verif Require Import PyBase QcLib ThemeModel.
From Verif Require Export LayersModel DirModel.
Open Scope list_scope.
Open Scope Qc_scope.

(** theme.py:83-85: get(key) without a value for None; the counter as in theme_get. *)
Definition theme_find (th : theme) (used : nat) (key : string) : res (nat * option settings) :=
  if String.eqb key "internal" then
    match nth_error (internals th) used with Some s => Ok (S used, Some s) | None => Err StopIteration end
  else Ok (used, match attribute th key with Some v => v | None => None end).

Section Main.
(** Points of an image, scales, what common.read makes of a path (for directories: of the name of a file in it). *)
Variable P : Type.
Variable scale : Type.
Variable read : text -> res camkind.
(** cairo_backend.py:105-122: the scale for several layers (CairoModel.layers_scale), or the exception. *)
Variable scale_for : list layer -> res scale.
(** The picture of a layer with a scale, in the box of the first layer of the image (CairoModel); a first layer
    without bounds is an exception here. *)
Variable drawing : scale -> layer -> settings -> layer -> res (P -> Qc).

(** render_layers (cairo_backend.py:102-131) with the theme of this name; [used] counts the internal settings that
    each theme has handed out.  --theme accepts only the names of themes. *)
Definition image_of (used : string -> nat) (theme_name : string) (ls : list layer) : res ((string -> nat) * image P) :=
  match lookup theme_name themes with
  | None => Err KeyError
  | Some th =>
      do sc <- scale_for ls;
      do r <- render_layers P layer l_class (fun s l => drawing sc (hd l ls) s l) th (used theme_name) ls;
      Ok ((fun n => if String.eqb n theme_name then fst r else used n), snd r)
  end.
(** Files are written one after the other until an exception. *)
Definition outcome := (list (text * image P) * res unit)%type.
Fixpoint write_images (used : string -> nat) (jobs : list (text * string * list layer)) : outcome :=
  match jobs with
  | [] => ([], Ok tt)
  | (file, th, ls) :: jobs =>
      match image_of used th ls with
      | Ok (used', im) => let (w, r) := write_images used' jobs in ((file, im) :: w, r)
      | Err e => ([], Err e)
      end
  end.
(** __main__.py:84-110, the images to make: file, theme, layers. *)
Definition board_jobs (outfile : text) (theme_name : string) (b : list layer) : res (list (text * string * list layer)) :=
  do top <- top_layers b;
  do bottom <- bottom_layers b;
  let copper := copper_layers b in
  let '(top, bottom, copper) :=
    match outline_layer b with
    | Some o => ([o] ++ top, [o] ++ bottom, [o] ++ copper ++ drill_layers b)
    | None => (top, bottom, copper)
    end in
  Ok [(outfile ++ T ".top.png", theme_name, top); (outfile ++ T ".bottom.png", theme_name, bottom);
      (outfile ++ T ".copper.png", "Transparent Multilayer"%string, copper)].
(** __main__.py:80-110: the first argument is a directory; nothing has been drawn in this run. *)
Definition main_directory (outfile : text) (theme_name : string) (directory : text) (files : list text) : outcome :=
  match (do r <- from_directory read directory None files; board_jobs outfile theme_name (fst r)) with
  | Ok jobs => write_images (fun _ => 0%nat) jobs
  | Err e => ([], Err e)
  end.

(** __main__.py:113-117 with cairo_backend.py:79-100: every file is loaded, then drawn; where the theme has no
    settings those of the default theme are taken (81-82), and its background always (83-84).  [initial] is the scale of a new
    context (36-38); [first] is the first layer. *)
Variable initial : scale.
Fixpoint draw_files (th : theme) (used : nat) (files : list text) (id : nat) (first : option layer) (im : option (image P)) : res (option (image P)) :=
  match files with
  | [] => Ok im
  | f :: files =>
      do k <- read f;
      let l := from_cam id k f in
      do r <- theme_find th used (l_class l);
      let s := match snd r with Some s => s | None => match attribute th_default (l_class l) with Some (Some s) => s | _ => black end end in
      let first := match first with Some x => x | None => l end in
      do im' <- render_layer P layer (fun s l => drawing initial first s l) (background th_default) s l im;
      draw_files th (fst r) files (S id) (Some first) (Some im')
  end.
(** __main__.py:111-118 *)
Definition main_files (outfile : text) (theme_name : string) (files : list text) : outcome :=
  match (match lookup theme_name themes with None => Err KeyError | Some th => draw_files th 0%nat files 0%nat None None end) with
  | Ok (Some im) => ([(outfile ++ T ".png", im)], Ok tt)
  | Ok None => ([], Err AttributeError)
  | Err e => ([], Err e)
  end.
End Main.
