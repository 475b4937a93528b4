(** Model of the comparison of macro shapes (the equivalent methods of gerber/primitives.py, nearly_equal of
    gerber/utils.py) and of how Rs274xContext (gerber/render/rs274x_backend.py) writes flashes of aperture
    macros.  Numbers are exact.  Groups without the statement they were made from
    (rs274x_backend.py:33-55), which reading a file never gives, are in BareModel.v.  Not modelled: groups without
    position. *)
From Verif Require Import PyBase QcLib NumModel GerberText GerberEval MacroModel AmModel WriterModel.
Open Scope Qc_scope.
Open Scope list_scope.

(** ** Comparing shapes *)

(** The primitives that have a method equivalent, with the attributes that determine what they look like;
    the apertures of the lines of an outline (circles of diameter 0) are left out. *)
Inductive part :=
| GLine (a b : point) (aperture : figure) (pol : polarity)
| GCircle (p : point) (diameter : Qc) (hs : holes) (pol : polarity)
| GRect (p : point) (w h : Qc) (rotation : Qc) (hs : holes) (pol : polarity)
| GPoly (p : point) (sides : Z) (radius : Qc) (rotation : Qc) (hs : holes) (pol : polarity)
| GOutline (lines : list (point * point)) (pol : polarity).
Definition add_point (p o : point) : point := (fst p + fst o, snd p + snd o).
(** utils.py:303-306, with ndigits = 6 *)
Definition nearly_equal (p q : point) : bool :=
  (rhe ((fst p - fst q) * zq 1000000) =? 0)%Z && (rhe ((snd p - snd q) * zq 1000000) =? 0)%Z.
(** primitives.py:306-315 Line.equivalent *)
Definition line_equivalent (l k : point * point) (o : point) : bool :=
  nearly_equal (fst l) (add_point (fst k) o) && nearly_equal (snd l) (add_point (snd k) o).
(** One primitive after the other; the lengths are compared first (1345-1346, 1415-1416). *)
Fixpoint all_equivalent {A} (f : A -> A -> bool) (l k : list A) : bool :=
  match l, k with
  | [], [] => true
  | x :: l', y :: k' => f x y && all_equivalent f l' k'
  | _, _ => false
  end.
Definition hole_diameter (h : holes) : option Qc := fst (fst h).
(** primitives.py:306-315 Line, 582-593 Circle, 767-778 Rectangle, 1242-1253 Polygon, 1409-1422 Outline *)
Definition part_equivalent (o : point) (x y : part) : bool :=
  match x, y with
  | GLine a b _ _, GLine a' b' _ _ => line_equivalent (a, b) (a', b') o
  | GCircle p d hs _, GCircle p' d' hs' _ =>
      qceq d d' && oeq (hole_diameter hs) (hole_diameter hs') && nearly_equal p (add_point p' o)
  | GRect p w h r hs _, GRect p' w' h' r' hs' _ =>
      qceq w w' && qceq h h' && qceq r r' && oeq (hole_diameter hs) (hole_diameter hs') && nearly_equal p (add_point p' o)
  | GPoly p n r _ _ _, GPoly p' n' r' _ _ _ => (n =? n')%Z && qceq r r' && nearly_equal p (add_point p' o)
  | GOutline l _, GOutline l' _ => all_equivalent (fun a b => line_equivalent a b o) l l'
  | _, _ => false
  end.

(** A flash of an aperture macro: AMGroup, 1256-1354.  Its primitives are at their places on the board; the
    macro and its primitives are those of the statement stmt, copied when the flash was read. *)
Record group := mkGroup {
  gr_parts : list part; gr_position : point; gr_polarity : option polarity;
  gr_macro : text; gr_prims : list amprim }.
(** 1340-1354 *)
Definition group_equivalent (g k : group) (o : point) : bool := all_equivalent (part_equivalent o) (gr_parts g) (gr_parts k).

(** ** Writing flashes of macros *)

(** primitive.__class__.__name__[0] *)
Definition class_initial (x : part) : text :=
  match x with
  | GLine _ _ _ _ => T "L" | GCircle _ _ _ _ => T "C" | GRect _ _ _ _ _ _ => T "R"
  | GPoly _ _ _ _ _ _ => T "P" | GOutline _ _ => T "O"
  end.
(** rs274x_backend.py:398-428 _hash_amacro.  [digits] stands for lines 410-421, the first characters of
    the dimensions of a primitive. *)
Fixpoint hash_loop (digits : part -> text) (hash : text) (l : list part) : text :=
  match l with
  | [] => hash
  | x :: l' =>
      let hash := hash ++ class_initial x ++ digits x in
      if Nat.ltb 20 (List.length hash) then hash else hash_loop digits hash l'
  end.
Definition hash_amacro (digits : part -> text) (g : group) : text := hash_loop digits (T "X") (gr_parts g).

(** self._macros *)
Definition macro_table := list (text * list (Z * group)).
Definition sub_point (p q : point) : point := (fst p - fst q, snd p - snd q).
(** 441-453 *)
Definition known_macro (g : group) (l : list (Z * group)) : option Z :=
  option_map fst (find (fun m => group_equivalent g (snd m) (sub_point (gr_position g) (gr_position (snd m)))) l).
Fixpoint add_macro (h : text) (m : Z * group) (t : macro_table) : macro_table :=
  match t with
  | [] => [(h, [m])]
  | (h', l) :: r => if teq h' h then (h', l ++ [m]) :: r else (h', l) :: add_macro h m r
  end.
(** 466-472 with 22-31 and gerber_statements.py:312-313: the statement with its new name, and the aperture. *)
Definition macro_stmts (h : text) (d : Z) (g : group) : list stmt :=
  [SAM h (gr_macro g) (map prim_to_gerber (gr_prims g)); SAD d h [[]]].
(** 430-485 _get_amacro *)
Definition get_amacro (digits : part -> text) (g : group) (c : ctx * macro_table) : Z * (ctx * macro_table) :=
  let (c, t) := c in
  let h := hash_amacro digits g in
  match (match tget h t with Some l => known_macro g l | None => None end) with
  | Some d => (d, (c, t))
  | None =>
      let d := c_next c in
      (d, (mkCtx (c_header c ++ macro_stmts h d g) (c_body c) (c_pol c) (c_pos c) (c_func c) (c_quad c) (c_dcode c) (d + 1) (c_table c),
           add_macro h (d, g) t))
  end.
(** Primitives given to render: those of WriterModel, and flashes of macros with the optional attribute comment. *)
Inductive gitem :=
| Plain (x : item)
| Macro (comment : option text) (g : group).
(** render.py:138-172, rs274x_backend.py:176-179, 487-490 *)
Definition render_one (digits : part -> text) (o : options) (x : gitem) (c : ctx * macro_table) : res (ctx * macro_table) :=
  match x with
  | Plain x => do c' <- render o x (fst c); Ok (c', snd c)
  | Macro cm g =>
      let c1 := match cm with Some t => emit [SCom t] (fst c) | None => fst c end in
      let (d, c2) := get_amacro digits g (c1, snd c) in
      Ok (render_flash o (gr_position g) (gr_polarity g) d (fst c2), snd c2)
  end.
Fixpoint render_list (digits : part -> text) (o : options) (l : list gitem) (c : ctx * macro_table) : res (ctx * macro_table) :=
  match l with
  | [] => Ok c
  | x :: r => do c <- render_one digits o x c; render_list digits o r c
  end.
(** 85-128 *)
Definition new_renderer (st : pset) : ctx * macro_table := (new_context st, []).
