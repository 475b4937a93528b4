(** From the text of a file to its image, and the size of the image of a drill file. *)
From Verif Require Import PyBase QcLib GeomModel GeomSpec HullModel CairoModel MacroGeomModel ShowModel CamShowModel.
From Verif Require GerberEval GerberText ExcellonModel ExcellonFile.
Open Scope R_scope.

(** rs274x.py:267-277 parse_raw, then cam.py:262-283 render.  Simplification: python evaluates every statement as soon as it
    is read; an error of the evaluation comes here after those of the reading. *)
Definition show_text (fill : list curve -> shape) (fc : GerberEval.centre_fun) (s : R) (inv : bool) (fs : GerberText.filesys) (data : text) : res shape :=
  do r <- GerberText.parse_text fs data; render_whole fill fc s inv (fst r).
(** The size of the image of a drill file: cairo_backend.py:64-68 with the box of excellon.py:224-234 *)
Definition drills_size (s : R) (f : ExcellonModel.xfile) : res pt :=
  do b <- ExcellonFile.bounding_box f; Ok (size_px (set_bounds s (real_box b) false false)).
