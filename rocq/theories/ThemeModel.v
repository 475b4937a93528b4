(** Model of gerber/render/theme.py, of RenderSettings (gerber/render/render.py:240-246) and of the part of
    GerberCairoContext which puts the layers of a board on top of each other
    (gerber/render/cairo_backend.py:79-100, 123-131, 166-174, 193-200, 551-566). *)
From Verif Require Import PyBase QcLib.
Open Scope Qc_scope.

(** render.py:240-246 *)
Definition color := (Qc * Qc * Qc)%type.
Record settings := mkSettings { s_color : color; s_alpha : Qc; s_invert : bool; s_mirror : bool }.
(** The decimal fraction n / 1000 *)
Definition mil (n : Z) : Qc := Q2Qc (n # 1000).
Definition rgb (r g b : Z) : color := (mil r, mil g, mil b).
(** RenderSettings(color), RenderSettings() *)
Definition plain (c : color) : settings := mkSettings c 1 false false.
Definition black : settings := plain (rgb 0 0 0).
(** theme.py:21-36 COLORS, in thousandths *)
Definition c_black := rgb 0 0 0.
Definition c_white := rgb 1000 1000 1000.
Definition c_red := rgb 1000 0 0.
Definition c_blue := rgb 0 0 1000.
Definition c_fr4 := rgb 290 345 0.
Definition c_green_mask := rgb 0 412 278.
Definition c_blue_mask := rgb 59 478 651.
Definition c_purple_mask := rgb 200 0 334.
Definition c_enig := rgb 694 533 514.
Definition c_hasl := rgb 871 851 839.
(** theme.py:39-48 SPECTRUM *)
Definition spectrum : list color :=
  [rgb 804 216 0; rgb 780 776 251; rgb 545 451 333; rgb 545 137 137; rgb 329 545 329; rgb 133 545 133; rgb 0 525 545; rgb 227 373 804].

(** theme.py:51-65: the keyword arguments; one given as None counts as given.  Simplification: internal is a
    list when it is given. *)
Record theme := mkTheme { given : list (string * option settings); internals : list settings }.
Fixpoint kwargs_get (key : string) (l : list (string * option settings)) : option (option settings) :=
  match l with [] => None | (k, v) :: l => if String.eqb k key then Some v else kwargs_get key l end.
(** theme.py:55-63: the attributes with their defaults *)
Definition defaults : list (string * settings) :=
  [ ("background", plain c_fr4); ("topsilk", plain c_white); ("bottomsilk", mkSettings c_white 1 false true);
    ("topmask", mkSettings c_green_mask (mil 850) true false); ("bottommask", mkSettings c_green_mask (mil 850) true true);
    ("top", plain c_hasl); ("bottom", mkSettings c_hasl 1 false true); ("drill", plain c_black); ("ipc_netlist", plain c_red) ]%string.
Fixpoint lookup {A} (key : string) (l : list (string * A)) : option A :=
  match l with [] => None | (k, v) :: l => if String.eqb k key then Some v else lookup key l end.
Definition default_internals : list settings := map plain spectrum.
(** getattr(theme, key) for the attributes set in 55-63; None for every other key.  Simplification: the other
    attributes a python object has (name, get, _internal and so on) are not classes of layers. *)
Definition attribute (th : theme) (key : string) : option (option settings) :=
  match lookup key defaults with
  | None => None
  | Some d => Some (match kwargs_get key (given th) with Some v => v | None => Some d end)
  end.
(** theme.py:67-84: get(key, RenderSettings()).  [used] counts the settings that the generator has yielded; it
    belongs to the theme and stays from one image to the next.  getattr with a default does not catch the
    StopIteration of next() on an exhausted generator. *)
Definition theme_get (th : theme) (used : nat) (key : string) : res (nat * settings) :=
  if String.eqb key "internal" then
    match nth_error (internals th) used with Some s => Ok (S used, s) | None => Err StopIteration end
  else Ok (used, match attribute th key with Some (Some s) => s | _ => black end).

(** theme.py:85-112 THEMES *)
Definition th_default : theme := mkTheme [] default_internals.
Definition th_osh_park : theme := mkTheme
  [ ("background", Some (plain c_purple_mask)); ("top", Some (plain c_enig)); ("bottom", Some (mkSettings c_enig 1 false true));
    ("topmask", Some (mkSettings c_purple_mask (mil 850) true false)); ("bottommask", Some (mkSettings c_purple_mask (mil 850) true true));
    ("topsilk", Some (mkSettings c_white (mil 800) false false)); ("bottomsilk", Some (mkSettings c_white (mil 800) false true)) ]%string
  default_internals.
Definition th_blue : theme := mkTheme
  [ ("topmask", Some (mkSettings c_blue_mask (mil 800) true false)); ("bottommask", Some (mkSettings c_blue_mask (mil 800) true false)) ]%string
  default_internals.
Definition th_transparent : theme := mkTheme
  [ ("background", Some (plain (rgb 900 900 900))); ("top", Some (mkSettings c_red (mil 500) false false));
    ("bottom", Some (mkSettings c_blue (mil 500) false false)); ("drill", Some (plain (rgb 300 300 300))) ]%string
  default_internals.
Definition th_multilayer : theme := mkTheme
  [ ("background", Some (plain (rgb 0 0 0))); ("top", Some (mkSettings (rgb 804 216 0) (mil 800) false false));
    ("bottom", Some (mkSettings (rgb 227 373 804) (mil 800) false false)); ("drill", Some (plain (rgb 300 300 300))) ]%string
  (map (fun c => mkSettings c (mil 500) false false) (removelast (tl spectrum))).
Definition themes : list (string * theme) :=
  [ ("default", th_default); ("OSH Park", th_osh_park); ("Blue", th_blue); ("Transparent Copper", th_transparent);
    ("Transparent Multilayer", th_multilayer) ]%string.

(** A pixel of the image: the colour multiplied by the opacity, and the opacity (as cairo keeps it).  Painting
    with a colour through a mask, operator OVER: set_source_rgba and paint or mask_surface (554-555, 565-566). *)
Definition pixel := (color * Qc)%type.
Definition empty_pixel : pixel := ((0, 0, 0), 0).
Definition over (c : color) (a : Qc) (p : pixel) : pixel :=
  let '((r, g, b), o) := p in
  let '(cr, cg, cb) := c in
  ((cr * a + r * (1 - a), cg * a + g * (1 - a), cb * a + b * (1 - a)), a + o * (1 - a)).

Section Stack.
(** Points of the image, and the layers.  [drawing] is the picture of one layer with given settings (the subject
    of CairoModel): how much of each point it covers, from 0 to 1. *)
Variable P : Type.
Variable layer : Type.
Variable class_of : layer -> string.
Variable drawing : settings -> layer -> res (P -> Qc).
Definition image := P -> pixel.
(** The image and whether the background is painted; None before the first layer.  560-566: has_bg is False
    after clear (166-174).  The background colour without settings is render.py:65. *)
Definition paint_background (bg : option settings) : image :=
  fun _ => match bg with Some s => over (s_color s) (s_alpha s) empty_pixel | None => over (rgb 0 0 0) 1 empty_pixel end.
(** 193-200, 551-555 *)
Definition draw_layer (s : settings) (l : layer) (im : image) : res image :=
  do m <- drawing s l; Ok (fun p => over (s_color s) (s_alpha s * m p) (im p)).
(** 79-100: render_layer; without an image this is the first layer (_render_count == 0).  bgsettings None: 83-84 *)
Definition render_layer (bg : settings) (s : settings) (l : layer) (im : option image) : res image :=
  draw_layer s l (match im with Some im => im | None => paint_background (Some bg) end).
(** 126-130.  A background given as None is replaced at 83-84 by that of the default theme. *)
Fixpoint draw_all (th : theme) (bg : settings) (used : nat) (ls : list layer) (im : option image) : res (nat * option image) :=
  match ls with
  | [] => Ok (used, im)
  | l :: ls =>
      do r <- theme_get th used (class_of l);
      do im' <- render_layer bg (snd r) l im;
      draw_all th bg (fst r) ls (Some im')
  end.
Definition background (th : theme) : settings := match attribute th "background" with Some (Some s) => s | _ => plain c_fr4 end.
(** 102-131 without the computation of the scale (CairoModel.layers_scale).  Without layers there is no surface
    to write (150). *)
Definition render_layers (th : theme) (used : nat) (ls : list layer) : res (nat * image) :=
  do r <- draw_all th (background th) used ls None;
  match snd r with Some im => Ok (fst r, im) | None => Err AttributeError end.
End Stack.
