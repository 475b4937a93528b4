(** Model of gerber/render/excellon_backend.py: the context that turns rendered drills and slots into an Excellon
    program, and of the parts of gerber/cam.py and gerber/excellon.py that feed it. *)
From Verif Require Import PyBase QcLib NumModel GerberText ExcellonModel ExcellonFile.
Open Scope Qc_scope.

(** A primitive given to the context: Drill and Slot of primitives.py:1600-1686, or another one.  [hit] is what the
    attribute hit of the object says: the tool (by location), and for slots whether slot_type is TYPE_ROUT; None if the
    object has no such attribute. *)
Inductive dprim :=
| DDrill (position : point) (hit : option tloc)
| DSlot (start end_ : point) (hit : option (tloc * bool))
| DOther.
(** excellon.py:207-222 ExcellonFile.primitives: fresh objects without an attribute hit; hit.tool.diameter is read; a
    missing coordinate is a TypeError (utils.py:233-240 validate_coordinates). *)
Definition file_prim (s : list tool) (h : hit) : res dprim :=
  do _ <- tool_at s (hit_tool h);
  match h with
  | Hit _ p => Ok (DDrill p None)
  | Slot _ (Some a, Some b) (Some x, Some y) _ => Ok (DSlot (a, b) (x, y) None)
  | Slot _ _ _ _ => Err TypeError
  end.

(** excellon_backend.py:10-32.  [o_header], [o_body]: the lists header and body; [o_handled], [o_cur], [o_slot_mode],
    [o_down], [o_pos]: handled_tools, cur_tool, drill_mode = MODE_SLOT, drill_down, _pos. *)
Record octx := mkOctx {
  o_header : list estmt;
  o_body : list estmt;
  o_handled : list tloc;
  o_cur : option tloc;
  o_slot_mode : bool;
  o_down : bool;
  o_pos : opoint }.
(** 34-42 _start_header; the comment of 44-47 is in [statements]. *)
Definition new_ctx (se : xset) : res octx :=
  match xs_notation se with
  | Incremental => Err NotImplementedError
  | Absolute => Ok (mkOctx [EUnit (xs_units se) (xs_zeros se) None] [EAbs] [] None false false (None, None))
  end.
Definition emit (l : list estmt) (c : octx) : octx :=
  mkOctx (o_header c) (o_body c ++ l) (o_handled c) (o_cur c) (o_slot_mode c) (o_down c) (o_pos c).
Definition set_mode (m : bool) (c : octx) : octx :=
  mkOctx (o_header c) (o_body c) (o_handled c) (o_cur c) m (o_down c) (o_pos c).
Definition set_down (b : bool) (c : octx) : octx :=
  mkOctx (o_header c) (o_body c) (o_handled c) (o_cur c) (o_slot_mode c) b (o_pos c).
Definition set_pos (p : point) (c : octx) : octx :=
  mkOctx (o_header c) (o_body c) (o_handled c) (o_cur c) (o_slot_mode c) (o_down c) (Some (fst p), Some (snd p)).

(** 93-94 _simplify_point *)
Definition same_coord (v : Qc) (o : option Qc) : bool := match o with Some w => qceq v w | None => false end.
Definition simplify (p : point) (pos : opoint) : option Qc * option Qc :=
  (if same_coord (fst p) (fst pos) then None else Some (fst p), if same_coord (snd p) (snd pos) then None else Some (snd p)).
(** slot.start != self._pos (150) *)
Definition same_place (p : point) (pos : opoint) : bool := same_coord (fst p) (fst pos) && same_coord (snd p) (snd pos).

(** 102-109, 137-144.  [py3]: a class with __eq__ (excellon_statements.py:70-71) and without __hash__ has no hash in
    python 3.  In python 2 the hash is that of the object, and != without __ne__ compares objects, so both tests are
    about identity.  from_tool (excellon_statements.py:122-135) copies the tool; the copy is written like the tool. *)
Definition use_tool (py3 : bool) (s : list tool) (l : tloc) (c : octx) : res octx :=
  do t <- tool_at s (Some l);
  if py3 then Err TypeError
  else
    let c := if existsb (Nat.eqb l) (o_handled c) then c
             else mkOctx (o_header c ++ [ETool l]) (o_body c) (l :: o_handled c) (o_cur c) (o_slot_mode c) (o_down c) (o_pos c) in
    Ok (if match o_cur c with Some k => Nat.eqb k l | None => false end then c
        else let c := emit [ESel (t_num t) None] c in
             mkOctx (o_header c) (o_body c) (o_handled c) (Some l) (o_slot_mode c) (o_down c) (o_pos c)).
(** 115-135 _start_drill_mode, called in slot mode only *)
Definition start_drill_mode (c : octx) : octx :=
  let c := if o_down c then set_down false (emit [ERetractC; ERetract] c) else c in
  set_mode false (emit [EDrill] c).
(** 96-113 _render_drill *)
Definition render_drill (py3 : bool) (s : list tool) (p : point) (hit : option tloc) (c : octx) : res octx :=
  let c := if o_slot_mode c then start_drill_mode c else c in
  match hit with
  | None => Err AttributeError
  | Some l =>
      do c <- use_tool py3 s l c;
      let '(x, y) := simplify p (o_pos c) in
      Ok (emit [ECoord None x y] (set_pos p c))
  end.
(** 137-185 _render_slot *)
Definition render_slot (py3 : bool) (s : list tool) (a b : point) (hit : option (tloc * bool)) (c : octx) : res octx :=
  match hit with
  | None => Err AttributeError
  | Some (l, rout) =>
      do c <- use_tool py3 s l c;
      if rout then
        let c := if same_place a (o_pos c) then c
                 else let c := if o_down c then set_down false (emit [ERetractC] c) else c in
                      let '(x, y) := simplify a (o_pos c) in
                      emit [ECoord (Some Rout) x y] (set_pos a c) in
        let c := if o_down c then c else set_down true (emit [EZRout] c) in
        let '(x, y) := simplify b (o_pos c) in
        Ok (set_mode true (emit [ECoord (Some Linear) x y] (set_pos b c)))
      else
        let c := if o_slot_mode c then start_drill_mode c else c in
        Ok (emit [ESlot (Some (fst a)) (Some (snd a)) (Some (fst b)) (Some (snd b))] (set_pos b c))
  end.
(** render.py:137-171 GerberContext.render; 69-91: ValueError for lines, arcs, regions, outlines, circles, rectangles,
    obrounds and polygons, which is what [DOther] stands for (macro groups and test records are passed over). *)
Definition render_prim (py3 : bool) (s : list tool) (c : octx) (p : dprim) : res octx :=
  match p with
  | DDrill q h => render_drill py3 s q h c
  | DSlot a b h => render_slot py3 s a b h c
  | DOther => Err ValueError
  end.
Fixpoint render_prims (py3 : bool) (s : list tool) (c : octx) (l : list dprim) : res octx :=
  match l with [] => Ok c | p :: l' => do c' <- render_prim py3 s c p; render_prims py3 s c' l' end.
(** A new context which is given the primitives. *)
Definition render_all (py3 : bool) (se : xset) (s : list tool) (l : list dprim) : res octx :=
  do c <- new_ctx se; render_prims py3 s c l.
(** cam.py:263-283 CamFile.render with such a context; the bounding box is computed first (277). *)
Definition render_file (py3 : bool) (f : xfile) : res octx :=
  do c <- new_ctx (xf_set f);
  do _ <- bounding_box f;
  do l <- mapM (file_prim (xf_store f)) (xf_hits f);
  render_prims py3 (xf_store f) c l.

(** 44-47, 49-60, 62-64 statements; the units of a statement matter for UnitStmt only. *)
Definition get_end (c : octx) : list estmt := (if o_down c then [ERetractC; ERetract] else []) ++ [EEnd None None].
Definition format_comment (se : xset) : text :=
  T "FILE_FORMAT=" ++ show_int (Z.of_nat (fst (xs_format se))) ++ T ":" ++ show_int (Z.of_nat (snd (xs_format se))).
Definition statements (se : xset) (c : octx) : list estmt :=
  [EHeaderBegin; EComment (format_comment se)] ++ o_header c ++ [ERewind] ++ o_body c ++ get_end c.
(** The statements written one per line, each with to_excellon(settings), as ExcellonFile.write does (excellon.py:262-280). *)
Definition out_text (se : xset) (s : list tool) (c : octx) : res text :=
  do l <- mapM (fun e => write_stmt se s (e, xs_units se)) (statements se c); Ok (join_lines l).
