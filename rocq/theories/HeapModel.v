(** Model of unit conversion of the graphical objects of gerber/primitives.py, on a heap of python
    objects, so that sharing (an aperture used by many lines) and in-place mutation are explicit. *)
From Verif Require Import PyBase QcLib NumModel GerberText.
Open Scope Qc_scope.

Definition loc := nat.
(** Attribute values.  [VOther] is any value without length and not a number (None is separate). *)
Inductive value :=
| VNone
| VNum (q : Qc)
| VSeq (tuple : bool) (l : list value)
| VRef (l : loc)
| VOther.

(** An object: its units attribute, _to_convert list and attributes (primitives.py:51-63). *)
Record pobj := mkP { po_units : option unit_; po_conv : list string; po_attrs : list (string * value) }.
Definition heap := list pobj.

Definition hget (h : heap) (l : loc) : option pobj := nth_error h l.
Fixpoint hset (h : heap) (l : loc) (f : pobj -> pobj) : heap :=
  match h, l with
  | [], _ => []
  | o :: h', O => f o :: h'
  | o :: h', Datatypes.S l' => o :: hset h' l' f
  end.
(** getattr; the attribute must exist. *)
Fixpoint getattr (n : string) (a : list (string * value)) : option value :=
  match a with [] => None | (m, v) :: a' => if String.eqb m n then Some v else getattr n a' end.
(** setattr on an existing attribute. *)
Fixpoint setattr (n : string) (v : value) (a : list (string * value)) : list (string * value) :=
  match a with [] => [] | (m, w) :: a' => if String.eqb m n then (m, v) :: a' else (m, w) :: setattr n v a' end.
Definition put (n : string) (v : value) (o : pobj) : pobj := mkP (po_units o) (po_conv o) (setattr n v (po_attrs o)).
Definition with_units (u : unit_) (o : pobj) : pobj := mkP (Some u) (po_conv o) (po_attrs o).

Definition other (u : unit_) : unit_ := match u with Inch => Metric | Metric => Inch end.
Definition unit_eqb (a b : unit_) : bool := match a, b with Inch, Inch | Metric, Metric => true | _, _ => false end.
(** utils.py:243-272 metric and inch: exact here. *)
Definition mm_per_inch : Qc := dec 254 1.
Definition to_unit (u : unit_) (q : Qc) : Qc := match u with Inch => q / mm_per_inch | Metric => q * mm_per_inch end.

(** A number converted; anything else makes the arithmetic fail. *)
Definition conv_num (u : unit_) (v : value) : res value := match v with VNum q => Ok (VNum (to_unit u q)) | _ => Err TypeError end.
(** tuple(map(inch, point)) *)
Definition conv_tuple (u : unit_) (v : value) : res value :=
  match v with VSeq _ l => do l' <- mapM (conv_num u) l; Ok (VSeq true l') | _ => Err TypeError end.

(** What to do with the value of one attribute (primitives.py:132-149): objects to convert, or a
    new value, or nothing.  The bare except (147-149) retries with inch(value), which fails in its
    turn on a sequence. *)
Inductive todo := Convert (l : list loc) | Replace (v : value) | Skip.
Definition as_ref (v : value) : res loc := match v with VRef l => Ok l | _ => Err TypeError end.
Definition plan (u : unit_) (v : value) : res todo :=
  match v with
  | VRef l => Ok (Convert [l])
  | VSeq _ ((VRef l :: _ :: _) as items) => do ls <- mapM as_ref items; Ok (Convert ls)
  | VSeq _ ((VSeq true _ :: _ :: _) as items) => do vs <- mapM (conv_tuple u) items; Ok (Replace (VSeq false vs))
  | VSeq _ ((_ :: _ :: _) as items) => do vs <- mapM (conv_num u) items; Ok (Replace (VSeq true vs))
  | VSeq _ _ => Ok Skip                              (* len(value) > 1 is false *)
  | VNum q => Ok (Replace (VNum (to_unit u q)))      (* len(value) fails *)
  | VNone => Ok Skip
  | VOther => Err TypeError
  end.

Section foldM.
  Context {A B : Type} (f : A -> B -> res A).
  Fixpoint foldM (a : A) (l : list B) : res A := match l with [] => Ok a | b :: l' => do a' <- f a b; foldM a' l' end.
End foldM.

(** primitives.py:127-175 to_inch / to_metric with target unit [u].  The fuel bounds the depth of
    the recursion; HeapProofs.v shows that one more than the number of objects is enough. *)
Fixpoint convert (fuel : nat) (u : unit_) (h : heap) (l : loc) : res heap :=
  match fuel with
  | O => Err GenericException
  | Datatypes.S fuel' =>
      match hget h l with
      | None => Err AttributeError
      | Some o =>
          match po_units o with
          | Some w =>
              if unit_eqb w u then Ok h
              else
                foldM (fun h n =>
                         match getattr n (po_attrs o) with
                         | None => Err AttributeError
                         | Some v =>
                             do t <- plan u v;
                             match t with
                             | Convert ls => foldM (convert fuel' u) h ls
                             | Replace v' => Ok (hset h l (put n v'))
                             | Skip => Ok h
                             end
                         end)
                      (hset h l (with_units u)) (po_conv o)
          | None => Ok h                             (* units None: neither 'metric' nor 'inch' *)
          end
      end
  end.

(** A loop over several objects, as in GerberFile.to_inch (rs274x.py:162-163). *)
Definition convert_all (fuel : nat) (u : unit_) (h : heap) (ls : list loc) : res heap := foldM (convert fuel u) h ls.

(** Offsets (primitives.py:177-187, 299-304, 515-519, 579-580, 1226-1227, 1315-1319, 1387-1390,
    1450-1453, 1646-1648, 1682-1684): the point attributes are moved, and the contained primitives
    of groups, outlines and regions are offset in turn; apertures are not.  A point that is None
    makes the addition fail.  Clearing of memoized values is modelled in CacheModel.v. *)
Definition point_attrs : list string := ["position"; "_position"; "start"; "end"; "center"]%string.
Definition move_value (d : Qc * Qc) (v : value) : res value :=
  match v with
  | VSeq _ [VNum x; VNum y] => Ok (VSeq true [VNum (x + fst d); VNum (y + snd d)])
  | _ => Err TypeError
  end.
Definition inner_list (o : pobj) : res (list loc) :=
  match getattr "primitives" (po_attrs o) with
  | None => Ok []
  | Some (VSeq _ l) => mapM as_ref l
  | Some _ => Err TypeError
  end.
Definition move_attr (d : Qc * Qc) (o : pobj) (h : heap) (l : loc) (n : string) : res heap :=
  match getattr n (po_attrs o) with
  | None => Ok h
  | Some v => do v' <- move_value d v; Ok (hset h l (put n v'))
  end.
Fixpoint offset_obj (fuel : nat) (d : Qc * Qc) (h : heap) (l : loc) : res heap :=
  match fuel with
  | O => Err GenericException
  | Datatypes.S fuel' =>
      match hget h l with
      | None => Err AttributeError
      | Some o =>
          do h1 <- foldM (fun h n => move_attr d o h l n) h point_attrs;
          do ls <- inner_list o;
          foldM (offset_obj fuel' d) h1 ls
      end
  end.
(** A loop over several objects, as in GerberFile.offset (rs274x.py:176-177). *)
Definition offset_all (fuel : nat) (d : Qc * Qc) (h : heap) (ls : list loc) : res heap := foldM (offset_obj fuel d) h ls.

(** copy.deepcopy of an object graph.
    Simplification: the copy contains a copy of every object of the heap, not only of those
    reachable from the argument; the difference cannot be observed. *)
Fixpoint shift_value (n : nat) (v : value) : value :=
  match v with
  | VRef l => VRef (n + l)%nat
  | VSeq t l => VSeq t (map (shift_value n) l)
  | _ => v
  end.
Definition shift_obj (n : nat) (o : pobj) : pobj :=
  mkP (po_units o) (po_conv o) (map (fun a => (fst a, shift_value n (snd a))) (po_attrs o)).
Definition deepcopy (h : heap) (ls : list loc) : heap * list loc :=
  (h ++ map (shift_obj (List.length h)) h, map (fun l => (List.length h + l)%nat) ls).
(** operations.py:25-58 to_inch and to_metric: a converted deep copy. *)
Definition converted_copy (fuel : nat) (u : unit_) (h : heap) (ls : list loc) : res (heap * list loc) :=
  let (h', ls') := deepcopy h ls in do h'' <- convert_all fuel u h' ls'; Ok (h'', ls').

(** operations.py:61-82 offset *)
Definition offset_copy (fuel : nat) (d : Qc * Qc) (h : heap) (ls : list loc) : res (heap * list loc) :=
  let (h', ls') := deepcopy h ls in do h'' <- offset_all fuel d h' ls'; Ok (h'', ls').

(** The classes, with their _to_convert lists. *)
Open Scope string_scope.
Definition vpoint (p : Qc * Qc) : value := VSeq true [VNum (fst p); VNum (snd p)].
Definition vopt (p : option (Qc * Qc)) : value := match p with Some p => vpoint p | None => VNone end.
(** primitives.py:209-215 *)
Definition new_line (a b : Qc * Qc) (ap : loc) (u : option unit_) : pobj :=
  mkP u ["start"; "end"; "aperture"] [("start", vpoint a); ("end", vpoint b); ("aperture", VRef ap)].
(** primitives.py:327-337; center may be None *)
Definition new_arc (a b : Qc * Qc) (c : option (Qc * Qc)) (ap : loc) (u : option unit_) : pobj :=
  mkP u ["start"; "end"; "center"; "aperture"] [("start", vpoint a); ("end", vpoint b); ("center", vopt c); ("aperture", VRef ap)].
(** primitives.py:526-535 *)
Definition new_circle (p : option (Qc * Qc)) (d : Qc) (hd : value) (hw hh : Qc) (u : option unit_) : pobj :=
  mkP u ["position"; "diameter"; "hole_diameter"; "hole_width"; "hole_height"]
      [("position", vopt p); ("diameter", VNum d); ("hole_diameter", hd); ("hole_width", VNum hw); ("hole_height", VNum hh)].
(** primitives.py:671-682 Rectangle and 1070-1081 Obround *)
Definition new_rect (p : option (Qc * Qc)) (w h hd hw hh : Qc) (u : option unit_) : pobj :=
  mkP u ["position"; "width"; "height"; "hole_diameter"; "hole_width"; "hole_height"]
      [("position", vopt p); ("width", VNum w); ("height", VNum h); ("hole_diameter", VNum hd); ("hole_width", VNum hw); ("hole_height", VNum hh)].
(** primitives.py:599-605 Ellipse and 791-797 Diamond *)
Definition new_ellipse (p : option (Qc * Qc)) (w h : Qc) (u : option unit_) : pobj :=
  mkP u ["position"; "width"; "height"] [("position", vopt p); ("width", VNum w); ("height", VNum h)].
(** primitives.py:866-874 ChamferRectangle (corners is a list of booleans) *)
Definition new_chamfer (p : option (Qc * Qc)) (w h c : Qc) (u : option unit_) : pobj :=
  mkP u ["position"; "width"; "height"; "chamfer"]
      [("position", vopt p); ("width", VNum w); ("height", VNum h); ("chamfer", VNum c); ("corners", VOther)].
(** primitives.py:986-994 RoundRectangle *)
Definition new_round (p : option (Qc * Qc)) (w h r : Qc) (u : option unit_) : pobj :=
  mkP u ["position"; "width"; "height"; "radius"]
      [("position", vopt p); ("width", VNum w); ("height", VNum h); ("radius", VNum r); ("corners", VOther)].
(** primitives.py:1171-1182 Polygon; sides and rotation are not converted *)
Definition new_polygon (p : option (Qc * Qc)) (sides r rot hd hw hh : Qc) (u : option unit_) : pobj :=
  mkP u ["position"; "radius"; "hole_diameter"; "hole_width"; "hole_height"]
      [("position", vopt p); ("sides", VNum sides); ("radius", VNum r); ("rotation", VNum rot); ("hole_diameter", VNum hd); ("hole_width", VNum hw); ("hole_height", VNum hh)].
(** primitives.py:1259-1293 AMGroup; the conversion of its statement, after the rest, is modelled as
    a further attribute to convert. *)
Definition new_group (p : option (Qc * Qc)) (inner : list loc) (stmt : option loc) (u : option unit_) : pobj :=
  mkP u ["_position"; "primitives"; "stmt"]
      [("_position", vopt p); ("primitives", VSeq false (map VRef inner)); ("stmt", match stmt with Some l => VRef l | None => VNone end)].
(** gerber_statements.py:456-466: the macro statement of an AMGroup, with the lengths of the macro
    primitives it holds (each converted unconditionally). Simplification: one attribute for each length. *)
Definition new_macro (lengths : list (string * Qc)) (u : option unit_) : pobj :=
  mkP u (map fst lengths) (map (fun a => (fst a, VNum (snd a))) lengths).
(** primitives.py:1362-1365 Outline and 1428-1431 Region *)
Definition new_region (inner : list loc) (u : option unit_) : pobj :=
  mkP u ["primitives"] [("primitives", VSeq false (map VRef inner))].
(** primitives.py:1460-1465 RoundButterfly, 1603-1608 Drill *)
Definition new_drill (p : option (Qc * Qc)) (d : Qc) (u : option unit_) : pobj :=
  mkP u ["position"; "diameter"] [("position", vopt p); ("diameter", VNum d)].
(** primitives.py:1492-1497 SquareButterfly *)
Definition new_square_butterfly (p : option (Qc * Qc)) (s : Qc) (u : option unit_) : pobj :=
  mkP u ["position"; "side"] [("position", vopt p); ("side", VNum s)].
(** primitives.py:1520-1543 Donut *)
Definition new_donut (p : option (Qc * Qc)) (w h i o : Qc) (u : option unit_) : pobj :=
  mkP u ["position"; "width"; "height"; "inner_diameter"; "outer_diameter"]
      [("position", vopt p); ("width", VNum w); ("height", VNum h); ("inner_diameter", VNum i); ("outer_diameter", VNum o)].
(** primitives.py:1576-1585 SquareRoundDonut *)
Definition new_square_round_donut (p : option (Qc * Qc)) (i o : Qc) (u : option unit_) : pobj :=
  mkP u ["position"; "inner_diameter"; "outer_diameter"] [("position", vopt p); ("inner_diameter", VNum i); ("outer_diameter", VNum o)].
(** primitives.py:1657-1664 Slot *)
Definition new_slot (a b : Qc * Qc) (d : Qc) (u : option unit_) : pobj :=
  mkP u ["start"; "end"; "diameter"] [("start", vpoint a); ("end", vpoint b); ("diameter", VNum d)].
(** primitives.py:1691-1697 TestRecord *)
Definition new_test_record (p : option (Qc * Qc)) (u : option unit_) : pobj :=
  mkP u ["position"] [("position", vopt p); ("net_name", VOther); ("layer", VOther)].
