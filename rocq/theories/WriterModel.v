(** Model of gerber/render/rs274x_backend.py, Rs274xContext: rendering primitives to RS-274X
    statements.  Not modelled: aperture macros (_get_amacro, 398-485) and the list self.comments,
    which is empty unless the caller fills it.  Numbers are exact. *)
From Verif Require Import PyBase QcLib NumModel GerberText GerberEval.
Open Scope Qc_scope.
Open Scope list_scope.

(** The attributes hole_diameter, hole_width and hole_height; None is python's None. *)
Definition holes := (option Qc * option Qc * option Qc)%type.
(** Circle (primitives.py:526-536), Rectangle (671-682), Obround (1070-1082), Polygon (1171-1184). *)
Inductive figure :=
| FCircle (diameter : Qc) (h : holes)
| FRect (w h : Qc) (hs : holes) (rotation : Qc)
| FObround (w h : Qc) (hs : holes) (rotation : Qc)
| FPolygon (sides : Z) (radius : Qc) (rotation : Qc) (hs : holes).
(** Line (209-215) and Arc (327-337) objects; the polarity defaults to None. *)
Inductive stroke :=
| WLine (a b : point) (ap : option figure) (pol : option polarity)
| WArc (a b c : point) (d : direction) (ap : option figure) (q : quadrant) (pol : option polarity).
(** Primitives that can be given to render; Outline is rendered as a Region. *)
Inductive thing :=
| TStroke (s : stroke)
| TRegion (l : list stroke) (pol : option polarity)
| TFlash (f : figure) (pos : point) (pol : option polarity)
| TDrill
| TSlot.
(** With the optional attribute comment. *)
Record item := mkItem { i_comment : option text; i_thing : thing }.

(** Keys of _circles, _rects, _obrounds, _polygons: one table here, the kinds being distinct. *)
Inductive key :=
| KCircle (d : Qc) (h : holes)
| KRect (w h : Qc) (hs : holes)
| KObround (w h : Qc) (hs : holes)
| KPolygon (radius : Qc) (sides : Z) (rotation : Qc) (hs : holes).
Definition oeq (a b : option Qc) : bool :=
  match a, b with Some x, Some y => qceq x y | None, None => true | _, _ => false end.
Definition holes_eq (a b : holes) : bool :=
  let '(x, y, z) := a in let '(x', y', z') := b in oeq x x' && oeq y y' && oeq z z'.
Definition key_eq (a b : key) : bool :=
  match a, b with
  | KCircle d h, KCircle d' h' => qceq d d' && holes_eq h h'
  | KRect w h k, KRect w' h' k' => qceq w w' && qceq h h' && holes_eq k k'
  | KObround w h k, KObround w' h' k' => qceq w w' && qceq h h' && holes_eq k k'
  | KPolygon r n t k, KPolygon r' n' t' k' => qceq r r' && (n =? n')%Z && qceq t t' && holes_eq k k'
  | _, _ => false
  end.

(** The context: header, body, _level_polarity, _pos ((None, None) is None here), _func, _quadrant_mode,
    _dcode, _next_dcode, and the tables. *)
Record ctx := mkCtx {
  c_header : list stmt; c_body : list stmt;
  c_pol : option polarity; c_pos : option point; c_func : option text; c_quad : option quadrant;
  c_dcode : option Z; c_next : Z; c_table : list (key * Z) }.
(** The attributes condensed_flash and explicit_region_move_end. *)
Record options := mkOptions { condensed_flash : bool; explicit_region_move_end : bool }.
(** 104, 110 *)
Definition default_options : options := mkOptions true false.

Definition emit (l : list stmt) (c : ctx) : ctx :=
  mkCtx (c_header c) (c_body c ++ l) (c_pol c) (c_pos c) (c_func c) (c_quad c) (c_dcode c) (c_next c) (c_table c).
Definition with_pol p c := mkCtx (c_header c) (c_body c) p (c_pos c) (c_func c) (c_quad c) (c_dcode c) (c_next c) (c_table c).
Definition with_pos p c := mkCtx (c_header c) (c_body c) (c_pol c) p (c_func c) (c_quad c) (c_dcode c) (c_next c) (c_table c).
Definition with_func p c := mkCtx (c_header c) (c_body c) (c_pol c) (c_pos c) p (c_quad c) (c_dcode c) (c_next c) (c_table c).
Definition with_cquad p c := mkCtx (c_header c) (c_body c) (c_pol c) (c_pos c) (c_func c) p (c_dcode c) (c_next c) (c_table c).
Definition with_dcode p c := mkCtx (c_header c) (c_body c) (c_pol c) (c_pos c) (c_func c) (c_quad c) p (c_next c) (c_table c).

(** 86-128 __init__ and _start_header; from_units builds a statement without parameter code. *)
Definition new_context (st : pset) : ctx :=
  mkCtx [SFS (p_zs st) (p_abs st) (p_fmt st); SMO false (p_units st)] [] None None None None None 10 [].
(** 146-148 *)
Definition statements (c : ctx) : list stmt := c_header c ++ c_body c ++ [SEof].

(** gerber_statements.py:271-309: the hole that follows the dimensions. *)
Definition hole_mods (h : holes) : list Qc :=
  let '(d, w, k) := h in
  let pos o := match o with Some v => qclt 0 v | None => false end in
  if pos d then [dflt_q d] else if pos w && pos k then [dflt_q w; dflt_q k] else [].
(** gerber_statements.py:271-309, and radius * 2 of rs274x_backend.py:386 *)
Definition definition_stmt (k : key) (d : Z) : stmt :=
  match k with
  | KCircle dia h => SAD d (T "C") [dia :: hole_mods h]
  | KRect w h hs => SAD d (T "R") [w :: h :: hole_mods hs]
  | KObround w h hs => SAD d (T "O") [w :: h :: hole_mods hs]
  | KPolygon r n t hs => SAD d (T "P") [r * zq 2 :: zq n :: t :: hole_mods hs]
  end.
Fixpoint kget (k : key) (l : list (key * Z)) : option Z :=
  match l with [] => None | (k', d) :: r => if key_eq k' k then Some d else kget k r end.
(** 289-307 _get_circle, 314-332, 341-358, 374-393: the D-code of the aperture, defined if it is new.
    [dcode] is the optional argument of that name. *)
Definition get_aperture (k : key) (dcode : option Z) (c : ctx) : Z * ctx :=
  match kget k (c_table c) with
  | Some d => (d, c)
  | None =>
      let d := match dcode with Some d => if (d =? 0)%Z then c_next c else d | None => c_next c end in
      let next := match dcode with Some d => if (d =? 0)%Z then (c_next c + 1)%Z else Z.max (d + 1) (c_next c) | None => (c_next c + 1)%Z end in
      (d, mkCtx (c_header c ++ [definition_stmt k d]) (c_body c) (c_pol c) (c_pos c) (c_func c) (c_quad c) (c_dcode c) next (c_table c ++ [(k, d)]))
  end.
(** 171-174, 277-279 *)
Definition select (d : Z) (c : ctx) : ctx :=
  match c_dcode c with
  | Some d' => if (d =? d')%Z then c else with_dcode (Some d) (emit [SAp d false] c)
  | None => with_dcode (Some d) (emit [SAp d false] c)
  end.
Definition no_holes : holes := (None, None, None).
(** 157-174 *)
Definition select_aperture (a : option figure) (c : ctx) : res ctx :=
  match a with
  | None => Ok c
  | Some (FCircle d h) => let (n, c1) := get_aperture (KCircle d h) None c in Ok (select n c1)
  | Some (FRect w h _ _) => let (n, c1) := get_aperture (KRect w h no_holes) None c in Ok (select n c1)
  | Some (FObround w h _ _) => let (n, c1) := get_aperture (KObround w h no_holes) None c in Ok (select n c1)
  | Some (FPolygon _ _ _ _) => Err NotImplementedError
  end.
Definition pol_eq (a b : option polarity) : bool :=
  match a, b with None, None | Some Dark, Some Dark | Some Clear, Some Clear => true | _, _ => false end.
(** 267-271.  Simplification: LPParamStmt('LP', None), which is written as dark, is the dark statement here. *)
Definition level_polarity (p dflt : option polarity) (c : ctx) : ctx :=
  let p := match p with Some _ => p | None => dflt end in
  if pol_eq p (c_pol c) then c
  else with_pol p (emit [SLP (match p with Some p => p | None => Dark end)] c).
Definition pt_eq (a b : point) : bool := qceq (fst a) (fst b) && qceq (snd a) (snd b).
(** self._pos != point *)
Definition is_here (p : point) (c : ctx) : bool := match c_pos c with Some q => pt_eq q p | None => false end.
(** 130-131 *)
Definition simplify_point (p : point) (c : ctx) : option Qc * option Qc :=
  match c_pos c with
  | Some q => (if qceq (fst p) (fst q) then None else Some (fst p), if qceq (snd p) (snd q) then None else Some (snd p))
  | None => (Some (fst p), Some (snd p))
  end.
Definition is_func (f : string) (c : ctx) : bool := match c_func c with Some g => teq g (T f) | None => false end.
(** CoordStmt.move, line, mode, arc, flash: gerber_statements.py:912-936 *)
Definition coord_stmt (f : option text) (p : option Qc * option Qc) (op : string) : stmt := SCoord f (fst p) (snd p) None None (Some (T op)).
(** 197-207: the second half of _render_line *)
Definition finish_line (b : point) (func : option text) (c : ctx) : ctx :=
  match simplify_point b c with
  | (None, None) => match func with Some _ => emit [SCoord func None None None None None] c | None => c end
  | p => with_pos (Some b) (emit [coord_stmt func p "D01"] c)
  end.
(** 181-207 _render_line *)
Definition render_line (a b : point) (ap : option figure) (pol dflt : option polarity) (c : ctx) : res ctx :=
  do c <- select_aperture ap c;
  let c := level_polarity pol dflt c in
  let func := if is_func "G01" c then None else Some (T "G01") in
  let c := with_func (Some (T "G01")) c in
  Ok (if is_here a c then finish_line b func c
      else finish_line b None (with_pos (Some a) (emit [coord_stmt func (simplify_point a c) "D02"] c))).
Definition quad_eq (a b : quadrant) : bool := match a, b with SingleQ, SingleQ | MultiQ, MultiQ => true | _, _ => false end.
(** 133-144; _i_none and _j_none are 0 *)
Definition simplify_offset (p o : point) : Qc * Qc :=
  (if qceq (fst p) (fst o) then 0 else fst p - fst o, if qceq (snd p) (snd o) then 0 else snd p - snd o).
(** 209-245 _render_arc *)
Definition render_arc (a b cen : point) (d : direction) (ap : option figure) (q : quadrant) (pol dflt : option polarity) (c : ctx) : res ctx :=
  let c := if match c_quad c with Some q' => quad_eq q q' | None => false end then c else with_cquad (Some q) (emit [SQuad q] c) in
  do c <- select_aperture ap c;
  let c := level_polarity pol dflt c in
  let func := match d with Clockwise => T "G02" | Counterclockwise => T "G03" end in
  let c := with_func (Some func) c in
  let c := if is_here a c then c else with_pos (Some a) (emit [coord_stmt (Some (T "G01")) (simplify_point a c) "D02"] c) in
  let (i, j) := simplify_offset cen a in
  let (x, y) := simplify_point b c in
  Ok (with_pos (Some b) (emit [SCoord (Some func) x y (Some i) (Some j) (Some (T "D01"))] c)).
Definition render_stroke (s : stroke) (dflt : option polarity) (c : ctx) : res ctx :=
  match s with
  | WLine a b ap pol => render_line a b ap pol dflt c
  | WArc a b cen d ap q pol => render_arc a b cen d ap q pol dflt c
  end.
Fixpoint render_strokes (l : list stroke) (dflt : option polarity) (c : ctx) : res ctx :=
  match l with
  | [] => Ok c
  | s :: r => do c <- render_stroke s dflt c; render_strokes r dflt c
  end.
(** 247-265 _render_region *)
Definition render_region (o : options) (l : list stroke) (pol : option polarity) (c : ctx) : res ctx :=
  let c := level_polarity pol (Some Dark) c in
  let c := emit [SReg On] c in
  do c <- render_strokes l pol c;
  let c := if explicit_region_move_end o then emit [SCoord None None None None None (Some (T "D02"))] c else c in
  Ok (emit [SReg Off] c).
(** 273-287 _render_flash *)
Definition render_flash (o : options) (p : point) (pol : option polarity) (d : Z) (c : ctx) : ctx :=
  let c := level_polarity pol (Some Dark) c in
  let c := select d c in
  let c := if condensed_flash o then emit [coord_stmt None (simplify_point p c) "D03"] c
           else emit [coord_stmt None (simplify_point p c) "D02"; SCoord None None None None None (Some (T "D03"))] c in
  with_pos (Some p) c.
(** 309-312, 334-339, 360-372 *)
Definition figure_key (f : figure) : key :=
  match f with
  | FCircle d h => KCircle d h
  | FRect w h hs _ => KRect w h hs
  | FObround w h hs _ => KObround w h hs
  | FPolygon n r t hs => KPolygon r n t hs
  end.
(** render.py:138-172 render, with rs274x_backend.py:176-179 pre_render_primitive, 395-396 _render_drill
    and the empty _render_slot of render.py:230. *)
Definition render (o : options) (x : item) (c : ctx) : res ctx :=
  let c := match i_comment x with Some t => emit [SCom t] c | None => c end in
  match i_thing x with
  | TStroke s => render_stroke s (Some Dark) c
  | TRegion l pol => render_region o l pol c
  | TFlash f p pol => let (d, c) := get_aperture (figure_key f) None c in Ok (render_flash o p pol d c)
  | TDrill => Err ValueError
  | TSlot => Ok c
  end.
Fixpoint render_all (o : options) (l : list item) (c : ctx) : res ctx :=
  match l with
  | [] => Ok c
  | x :: r => do c <- render o x c; render_all o r c
  end.
(** 503-510 dump *)
Definition dump (st : pset) (c : ctx) : res text := write_file st (statements c).
