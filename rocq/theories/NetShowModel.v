(** Images of netlists: gerber/ipc356.py:140-149 and gerber/render/cairo_backend.py:518-531. *)
From Verif Require Import PyBase QcLib GeomModel GeomSpec CairoModel MacroGeomModel.
From Verif Require IpcModel.
Import ListNotations.
Open Scope R_scope.
Open Scope list_scope.

Section Records.
Variable fill : list curve -> shape.
(** What cairo's show_text paints on the surface of the layer: the text in the font chosen in 521-523, at a position in
    the coordinates of the layer.  Any function will do. *)
Variable glyphs : list ascii -> pt -> shape.
(** A test record has a position and the name of its net (primitives.py:1687-1697); it is always dark. *)
Definition record : Type := pt * list ascii.
(** cairo_backend.py:519-520: the origin of the image is added to the position. *)
Definition record_position (c : context) (r : record) : pt := (fst (fst r) + fst (origin c), snd (fst r) + snd (origin c)).
(** cairo_backend.py:524: a circle of 0.015; primitives.py:523-590 Circle *)
Definition record_dot (c : context) (r : record) : drawn :=
  let q := record_position c r in mkDrawn true (circle_box q (15 / 1000)) (PCircle q (15 / 1000) 0 0 0 0).
(** cairo_backend.py:525-531: the name of the net *)
Definition record_text (c : context) (r : record) : shape :=
  let q := record_position c r in glyphs (snd r) (scale c * (fst q + 15 / 1000), scale c * (snd q + 15 / 1000)).
(** cairo_backend.py:518-531 _render_test_record *)
Definition render_record (c : context) (r : record) (layer : shape) : res shape :=
  do layer <- CairoModel.render fill c (record_dot c r) layer;
  Ok (draw (layer_operator c true) (record_text c r) layer).
(** cairo_backend.py:196-198, ipc356.py:141-147: one after another *)
Fixpoint render_records (c : context) (l : list record) (layer : shape) : res shape :=
  match l with [] => Ok layer | r :: l => do layer <- render_record c r layer; render_records c l layer end.
(** A layer of test records (cairo_backend.py:193-198, 533-549) *)
Definition record_layer (c : context) (l : list record) : res shape := render_records c l (fun q => invert c = true /\ on_surface c q).
(** ipc356.py:84-85, 141-147: position and name of the records that are shown *)
Definition records_of (l : IpcModel.rlayer) (n : IpcModel.netlist) : list record := map (fun p => (real_pt (fst (fst p)), snd (fst p))) (IpcModel.render l n).
(** ipc356.py:140-147 IPCNetlist.render: it sets no bounds and makes no layer.  [None] is a context without bounds: the sum of
    a position and a missing origin (519-520) is a TypeError. *)
Definition render_netlist (o : option context) (l : IpcModel.rlayer) (n : IpcModel.netlist) : res shape :=
  match o with
  | Some c => record_layer c (records_of l n)
  | None => match records_of l n with [] => Ok (fun _ => False) | _ => Err TypeError end
  end.
End Records.
