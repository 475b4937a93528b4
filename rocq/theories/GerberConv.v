(** Model of unit conversion and offset of Gerber files: the statements (gerber_statements.py) and
    GerberFile.to_inch, to_metric and offset (rs274x.py:157-177). *)
From Verif Require Import PyBase QcLib NumModel MacroModel GerberText GerberEval HeapModel.
Open Scope Qc_scope.

(** ** Statements, each with its units attribute *)
Definition ustmt := (stmt * unit_)%type.
Definition omap {A} (f : A -> A) (o : option A) : option A := match o with Some a => Some (f a) | None => None end.
(** gerber_statements.py:1009-1010 and 1023-1024. *)
Definition unit_function (u : unit_) (fn : option text) : option text :=
  match fn, u with
  | Some f, Inch => if teq f (T "G71") then Some (T "G70") else fn
  | Some f, Metric => if teq f (T "G70") then Some (T "G71") else fn
  | None, _ => None
  end.
(** to_inch / to_metric of the statement classes: Statement 61-65, MOParamStmt 218-222, ADParamStmt
    358-368, AMParamStmt 456-466, OFParamStmt 707-721, SFParamStmt 781-795, CoordStmt 998-1024.
    Simplification: the macro primitives built last by an AM statement, which it converts too, are
    not modelled here (their texts are kept unchanged). *)
Definition convert_stmt (u : unit_) (us : ustmt) : ustmt :=
  let (s, w) := us in
  let c := to_unit u in
  match s with
  | SMO p _ => (SMO p u, w)
  | SAD d sh mods => if unit_eqb w u then us else (SAD d sh (map (map c) mods), u)
  | SAM _ _ _ => if unit_eqb w u then us else (s, u)
  | SOF a b => if unit_eqb w u then us else (SOF (omap c a) (omap c b), u)
  | SSF a b => if unit_eqb w u then us else (SSF (omap c a) (omap c b), u)
  | SCoord fn x y i j op =>
      if unit_eqb w u then us else (SCoord (unit_function u fn) (omap c x) (omap c y) (omap c i) (omap c j) op, u)
  | _ => (s, u)
  end.
(** offset of the statement classes: Statement 67-68, OFParamStmt 723-727, SFParamStmt 797-801,
    CoordStmt 1026-1034. *)
Definition offset_stmt (d : Qc * Qc) (s : stmt) : stmt :=
  let px := fun q => q + fst d in let py := fun q => q + snd d in
  match s with
  | SOF a b => SOF (omap px a) (omap py b)
  | SSF a b => SSF (omap px a) (omap py b)
  | SCoord fn x y i j op => SCoord fn (omap px x) (omap py y) (omap px i) (omap py j) op
  | _ => s
  end.

(** ** The object graph of an evaluated file
    The aperture store of GerberEval.v comes first, then the objects of the primitives in order;
    a region segment without aperture has its own Circle((0, 0), 0) (rs274x.py:663), without units.
    Simplification: the inner primitives and the statement of a macro aperture are left out. *)
Definition obj_of (o : obj) : pobj :=
  let u := Some (o_units o) in
  match o_shape o with
  | ShCircle d hd hw hh => new_circle (o_pos o) d (VNum hd) hw hh u
  | ShRect w h hd hw hh | ShObround w h hd hw hh => new_rect (o_pos o) w h hd hw hh u
  | ShPolygon n r rot hd hw hh => new_polygon (o_pos o) (zq n) r rot hd hw hh u
  | ShMacro _ => new_group (o_pos o) [] None u
  end.
Definition no_aperture : pobj := new_circle (Some (0, 0)) 0 VNone 0 0 None.
Definition seg_obj (s : seg) (ap : loc) : pobj :=
  match s with
  | SgLine a b _ _ u => new_line a b ap (Some u)
  | SgArc a b c _ _ _ _ u => new_arc a b c ap (Some u)
  end.
Definition seg_ap (s : seg) : option loc := match s with SgLine _ _ ap _ _ => ap | SgArc _ _ _ _ ap _ _ _ => ap end.
(** The objects of a segment placed at [n], and the location of the segment itself. *)
Definition place_seg (n : nat) (s : seg) : list pobj * loc :=
  match seg_ap s with
  | Some l => ([seg_obj s l], n)
  | None => ([no_aperture; seg_obj s n], Datatypes.S n)
  end.
Fixpoint place_segs (n : nat) (l : list seg) : list pobj * list loc :=
  match l with
  | [] => ([], [])
  | s :: l' =>
      let (os, x) := place_seg n s in
      let (os', xs) := place_segs (n + List.length os) l' in
      ((os ++ os')%list, x :: xs)
  end.
Definition place (n : nat) (p : prim) : list pobj * loc :=
  match p with
  | PStroke s => place_seg n s
  | PRegion l _ u => let (os, xs) := place_segs n l in ((os ++ [new_region xs (Some u)])%list, (n + List.length os)%nat)
  | PFlash l => ([], l)
  end.
Fixpoint place_all (n : nat) (ps : list prim) : list pobj * list loc :=
  match ps with
  | [] => ([], [])
  | p :: ps' =>
      let (os, x) := place n p in
      let (os', xs) := place_all (n + List.length os) ps' in
      ((os ++ os')%list, x :: xs)
  end.
Definition heap_of (st : gst) : heap := (map obj_of (g_store st) ++ fst (place_all (List.length (g_store st)) (g_prims st)))%list.
Definition roots_of (st : gst) : list loc := snd (place_all (List.length (g_store st)) (g_prims st)).

(** ** Files *)
(** rs274x.py:102-105 GerberFile; the units are those of the settings (cam.py:219).  The table of
    apertures refers to objects of the heap too; it is not used by the operations below. *)
Record gfile := mkFile { f_units : unit_; f_stmts : list ustmt; f_heap : heap; f_prims : list loc }.
(** rs274x.py:267-277 parse_raw, from the statements on. *)
Definition open_file (fc : centre_fun) (l : list stmt) : res gfile :=
  do r <- evaluate_all fc g_init l;
  let (st, l') := r in
  let u := p_units (g_set st) in
  Ok (mkFile u (map (fun s => (s, u)) l') (heap_of st) (roots_of st)).
(** rs274x.py:157-171 to_inch, to_metric. *)
Definition file_to (u : unit_) (f : gfile) : res gfile :=
  if unit_eqb (f_units f) u then Ok f
  else
    do h <- convert_all (Datatypes.S (List.length (f_heap f))) u (f_heap f) (f_prims f);
    Ok (mkFile u (map (convert_stmt u) (f_stmts f)) h (f_prims f)).
(** A sequence of to_inch and to_metric calls. *)
Definition file_seq (us : list unit_) (f : gfile) : res gfile := foldM (fun f u => file_to u f) f us.
(** rs274x.py:173-177 offset. *)
Definition file_offset (d : Qc * Qc) (f : gfile) : res gfile :=
  do h <- offset_all (Datatypes.S (List.length (f_heap f))) d (f_heap f) (f_prims f);
  Ok (mkFile (f_units f) (map (fun s => (offset_stmt d (fst s), snd s)) (f_stmts f)) h (f_prims f)).
