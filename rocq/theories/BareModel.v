(** Model of how a group of macro shapes that was not made from a statement is written: AMGroupContext
    (gerber/render/rs274x_backend.py:15-82) and the from_primitive methods of gerber/am_statements.py.
    Numbers are exact, apart from the rounding of outlines; integers are written like floats. *)
From Verif Require Import PyBase QcLib NumModel FloatCodec GerberText GerberEval MacroModel AmModel WriterModel AmRenderModel.
Open Scope Qc_scope.
Open Scope list_scope.

(** primitives.py:299-304 Line.offset, 579-580 Circle, 177-187 Primitive (for Rectangle), 1226-1227 Polygon, 1387-1390 Outline *)
Definition offset_part (o : point) (x : part) : part :=
  match x with
  | GLine a b ap pol => GLine (add_point a o) (add_point b o) ap pol
  | GCircle p d hs pol => GCircle (add_point p o) d hs pol
  | GRect p w h r hs pol => GRect (add_point p o) w h r hs pol
  | GPoly p n r t hs pol => GPoly (add_point p o) n r t hs pol
  | GOutline l pol => GOutline (map (fun s => (add_point (fst s) o, add_point (snd s) o)) l) pol
  end.
(** primitives.py:1322-1338: the setter of position; a group without position is where it is. *)
Definition place (new : point) (old : option point) (parts : list part) : list part :=
  let d := match old with Some p => (fst new - fst p, snd new - snd p) | None => new end in
  map (offset_part d) parts.

(** round(x, 6) *)
Definition round6 (v : Qc) : Qc := rnd53 (dec (rhe (v * zq (p10 6))) 6).
Definition round_point (p : point) : point := (round6 (fst p), round6 (snd p)).
(** The attribute width of an aperture; circles and polygons have none. *)
Definition width_of (f : figure) : res Qc :=
  match f with
  | FRect w _ _ _ | FObround w _ _ _ => Ok w
  | FCircle _ _ | FPolygon _ _ _ _ => Err AttributeError
  end.
(** The from_primitive methods.  [degrees] stands for math.degrees. *)
Definition from_primitive (degrees : Qc -> Qc) (x : part) : res amprim :=
  match x with
  | GCircle p d _ _ => Ok (ACircle true d p)                                          (* 192-194 *)
  | GLine a b ap _ => do w <- width_of ap; Ok (AVector 2 true w a b 0)                (* 264-266 *)
  | GOutline l _ =>                                                                   (* 374-384, 399-414 *)
      match l with
      | [] => Err IndexError
      | s :: _ =>
          let start := round_point (fst s) in
          let points := map (fun s => round_point (snd s)) l in
          if point_eqb (List.last points (0, 0)) start then Ok (AOutline true start points 0) else Err ValueError
      end
  | GPoly p n r t _ _ =>                                                              (* 496-498, 512-527 *)
      if ((n <? 3) || (12 <? n))%Z then Err ValueError else Ok (APolygon true n p (r * Q2Qc 2) t)
  | GRect p w h r _ _ => Ok (ACenter true w h p (degrees r))                          (* 872-878 *)
  end.
(** 33-63: the text given to AMParamStmt, whose constructor reads it (gerber_statements.py:417-425).  All of [part] are
    classes that are known in 40-50. *)
Definition bare_macro (degrees : Qc -> Qc) (position : option point) (parts : list part) : res text :=
  do l <- mapM (from_primitive degrees) (place (0, 0) position parts);
  let macro := List.concat (map prim_to_gerber l) in
  do _ <- read_macro macro; Ok macro.
(** The group as it is given to _get_amacro, with the statement made for it: its list of primitives is filled by
    build only (gerber_statements.py:422, 427-454), which nobody calls. *)
Definition bare_group (degrees : Qc -> Qc) (position : point) (pol : option polarity) (parts : list part) : res group :=
  do macro <- bare_macro degrees (Some position) parts;
  Ok (mkGroup parts position pol macro []).
