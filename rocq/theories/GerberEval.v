(** Model of the statement evaluator of gerber/rs274x.py (GerberParser.evaluate and helpers).
    Aperture objects are shared by reference between the aperture table and the lines drawn with
    them, so they live in a store; assignments to their attributes are store updates. *)
From Verif Require Import PyBase QcLib NumModel MacroModel GerberText.
Open Scope Qc_scope.

Definition point := (Qc * Qc)%type.
Inductive direction := Clockwise | Counterclockwise.
Inductive interpolation := Linear | ArcMode.

(** The constructor arguments of the aperture classes: Circle (primitives.py:526-536), Rectangle
    (667-682), Obround (1070-1082), Polygon (1171-1184) and AMGroup (1259-1276).
    Simplification: the primitives of a macro are kept as (code, modifiers), not turned into
    objects (am_statements.py), so the errors of from_gerber and to_primitive are not modelled here. *)
Inductive shape :=
| ShCircle (diameter hole_d hole_w hole_h : Qc)
| ShRect (w h hole_d hole_w hole_h : Qc)
| ShObround (w h hole_d hole_w hole_h : Qc)
| ShPolygon (sides : Z) (radius rotation hole_d hole_w hole_h : Qc)
| ShMacro (prims : list (Z * list mval)).

(** An aperture object: the shape and the attributes position, level_polarity, units
    (primitives.py:51-63; the default polarity is 'dark'). *)
Record obj := mkObj { o_shape : shape; o_pos : option point; o_pol : polarity; o_units : unit_ }.

Definition loc := nat.
Definition store := list obj.
(** A new object. *)
Definition alloc (h : store) (o : obj) : store * loc := (h ++ [o], List.length h).
Definition fetch (h : store) (l : loc) : option obj := nth_error h l.
(** Assignment to the attributes of an object. *)
Fixpoint assign (h : store) (l : loc) (f : obj -> obj) : store :=
  match h, l with
  | [], _ => []
  | o :: h', O => f o :: h'
  | o :: h', Datatypes.S l' => o :: assign h' l' f
  end.
Definition set_pos (p : point) (o : obj) : obj := mkObj (o_shape o) (Some p) (o_pol o) (o_units o).
Definition set_pol (p : polarity) (o : obj) : obj := mkObj (o_shape o) (o_pos o) p (o_units o).
Definition set_units (u : unit_) (o : obj) : obj := mkObj (o_shape o) (o_pos o) (o_pol o) u.

(** Line (primitives.py:209-215) and Arc (327-337) objects.  The aperture [None] stands for the
    throw-away Circle((0, 0), 0) of a region segment without aperture (rs274x.py:663). *)
Inductive seg :=
| SgLine (a b : point) (ap : option loc) (pol : polarity) (u : unit_)
| SgArc (a b : point) (c : option point) (d : direction) (ap : option loc) (q : quadrant) (pol : polarity) (u : unit_).

(** Entries of GerberParser.primitives. *)
Inductive prim :=
| PStroke (s : seg)
| PRegion (l : list seg) (pol : polarity) (u : unit_)
| PFlash (l : loc).

(** GerberParser attributes (rs274x.py:240-259), with the store. *)
Record gst := mkG {
  g_set : pset;                       (* settings *)
  g_prims : list prim;                (* primitives *)
  g_aps : list (Z * loc);             (* apertures, newest binding first *)
  g_macros : list (text * list instr);(* macros: the instructions of the statement *)
  g_cur : option (list seg);          (* current_region *)
  g_x : Qc; g_y : Qc;
  g_op : text;
  g_ap : Z;                           (* aperture *)
  g_interp : interpolation;
  g_dir : direction;
  g_ipol : bool;                      (* image_polarity is 'positive' *)
  g_lpol : polarity;
  g_region : onoff;
  g_quad : quadrant;
  g_store : store }.

(** rs274x.py:240-259. *)
Definition g_init : gst :=
  mkG pset0 [] [] [] None 0 0 (T "D02") 0 Linear Clockwise true Dark Off MultiQ [].

(** Attribute assignments. *)
Definition with_set v st := mkG v (g_prims st) (g_aps st) (g_macros st) (g_cur st) (g_x st) (g_y st) (g_op st) (g_ap st) (g_interp st) (g_dir st) (g_ipol st) (g_lpol st) (g_region st) (g_quad st) (g_store st).
Definition with_aps v h st := mkG (g_set st) (g_prims st) v (g_macros st) (g_cur st) (g_x st) (g_y st) (g_op st) (g_ap st) (g_interp st) (g_dir st) (g_ipol st) (g_lpol st) (g_region st) (g_quad st) h.
Definition with_macros v st := mkG (g_set st) (g_prims st) (g_aps st) v (g_cur st) (g_x st) (g_y st) (g_op st) (g_ap st) (g_interp st) (g_dir st) (g_ipol st) (g_lpol st) (g_region st) (g_quad st) (g_store st).
Definition with_cur v st := mkG (g_set st) (g_prims st) (g_aps st) (g_macros st) v (g_x st) (g_y st) (g_op st) (g_ap st) (g_interp st) (g_dir st) (g_ipol st) (g_lpol st) (g_region st) (g_quad st) (g_store st).
Definition with_xy x y st := mkG (g_set st) (g_prims st) (g_aps st) (g_macros st) (g_cur st) x y (g_op st) (g_ap st) (g_interp st) (g_dir st) (g_ipol st) (g_lpol st) (g_region st) (g_quad st) (g_store st).
Definition with_op v st := mkG (g_set st) (g_prims st) (g_aps st) (g_macros st) (g_cur st) (g_x st) (g_y st) v (g_ap st) (g_interp st) (g_dir st) (g_ipol st) (g_lpol st) (g_region st) (g_quad st) (g_store st).
Definition with_ap v st := mkG (g_set st) (g_prims st) (g_aps st) (g_macros st) (g_cur st) (g_x st) (g_y st) (g_op st) v (g_interp st) (g_dir st) (g_ipol st) (g_lpol st) (g_region st) (g_quad st) (g_store st).
Definition with_interp v st := mkG (g_set st) (g_prims st) (g_aps st) (g_macros st) (g_cur st) (g_x st) (g_y st) (g_op st) (g_ap st) v (g_dir st) (g_ipol st) (g_lpol st) (g_region st) (g_quad st) (g_store st).
Definition with_dir v st := mkG (g_set st) (g_prims st) (g_aps st) (g_macros st) (g_cur st) (g_x st) (g_y st) (g_op st) (g_ap st) (g_interp st) v (g_ipol st) (g_lpol st) (g_region st) (g_quad st) (g_store st).
Definition with_ipol v st := mkG (g_set st) (g_prims st) (g_aps st) (g_macros st) (g_cur st) (g_x st) (g_y st) (g_op st) (g_ap st) (g_interp st) (g_dir st) v (g_lpol st) (g_region st) (g_quad st) (g_store st).
Definition with_lpol v st := mkG (g_set st) (g_prims st) (g_aps st) (g_macros st) (g_cur st) (g_x st) (g_y st) (g_op st) (g_ap st) (g_interp st) (g_dir st) (g_ipol st) v (g_region st) (g_quad st) (g_store st).
Definition with_region v st := mkG (g_set st) (g_prims st) (g_aps st) (g_macros st) (g_cur st) (g_x st) (g_y st) (g_op st) (g_ap st) (g_interp st) (g_dir st) (g_ipol st) (g_lpol st) v (g_quad st) (g_store st).
Definition with_quad v st := mkG (g_set st) (g_prims st) (g_aps st) (g_macros st) (g_cur st) (g_x st) (g_y st) (g_op st) (g_ap st) (g_interp st) (g_dir st) (g_ipol st) (g_lpol st) (g_region st) v (g_store st).
Definition with_store v st := mkG (g_set st) (g_prims st) (g_aps st) (g_macros st) (g_cur st) (g_x st) (g_y st) (g_op st) (g_ap st) (g_interp st) (g_dir st) (g_ipol st) (g_lpol st) (g_region st) (g_quad st) v.
(** self.primitives.append(p). *)
Definition append (p : prim) st := mkG (g_set st) (g_prims st ++ [p]) (g_aps st) (g_macros st) (g_cur st) (g_x st) (g_y st) (g_op st) (g_ap st) (g_interp st) (g_dir st) (g_ipol st) (g_lpol st) (g_region st) (g_quad st) (g_store st).

(** Dictionaries: newest binding first. *)
Fixpoint zget {A} (k : Z) (d : list (Z * A)) : option A :=
  match d with [] => None | (k', v) :: d' => if (k' =? k)%Z then Some v else zget k d' end.
Fixpoint tget {A} (k : text) (d : list (text * A)) : option A :=
  match d with [] => None | (k', v) :: d' => if teq k' k then Some v else tget k d' end.

(** [l[n]]. *)
Definition index {A} (l : list A) (n : nat) : res A :=
  match nth_error l n with Some v => Ok v | None => Err IndexError end.
(** int(float): truncation towards zero. *)
Definition py_trunc (v : Qc) : Z := Z.quot (Qnum (this v)) (Zpos (Qden (this v))).

(** The hole of a shape whose dimensions are followed by a round or rectangular hole at index [n]. *)
Definition hole (m : list Qc) (n : nat) (upto : bool) : Qc * Qc * Qc :=
  let extra := List.length m in
  if Nat.eqb extra (n + 1) then (nth n m 0, 0, 0)
  else if (if upto then Nat.leb (n + 2) extra else Nat.eqb extra (n + 2)) then (0, nth n m 0, nth (n + 1) m 0)
  else (0, 0, 0).

(** rs274x.py:512-586 _define_aperture: the aperture. *)
Definition build_aperture (macros : list (text * list instr)) (name : text) (modifiers : list (list Qc)) : res shape :=
  if teq name (T "C") then                                                      (* 514-530 *)
    do m <- index modifiers 0; do d <- index m 0;
    let '(hd, hw, hh) := hole m 1 false in Ok (ShCircle d hd hw hh)
  else if teq name (T "R") then                                                 (* 532-547 *)
    do m <- index modifiers 0; do w <- index m 0; do h <- index m 1;
    let '(hd, hw, hh) := hole m 2 false in Ok (ShRect w h hd hw hh)
  else if teq name (T "O") then                                                 (* 548-563 *)
    do m <- index modifiers 0; do w <- index m 0; do h <- index m 1;
    let '(hd, hw, hh) := hole m 2 false in Ok (ShObround w h hd hw hh)
  else if teq name (T "P") then                                                 (* 564-583 *)
    do m <- index modifiers 0; do d <- index m 0; do n <- index m 1;
    let r := nth 2 m 0 in
    let '(hd, hw, hh) := hole m 3 true in Ok (ShPolygon (py_trunc n) (d / zq 2) r hd hw hh)
  else                                                                          (* 584-585 *)
    match tget name macros with
    | None => Err KeyError
    | Some instrs => do m <- index modifiers 0; do r <- eval_macro [] instrs (PSeq m); Ok (ShMacro (fst r))
    end.

(** rs274x.py:512-587. *)
Definition define_aperture (st : gst) (d : Z) (name : text) (modifiers : list (list Qc)) : res gst :=
  do s <- build_aperture (g_macros st) name modifiers;
  let (h, l) := alloc (g_store st) (mkObj s None Dark (p_units (g_set st))) in
  Ok (with_aps ((d, l) :: g_aps st) h st).

(** rs274x.py:589-600 _evaluate_mode. *)
Definition evaluate_region_mode (st : gst) (m : onoff) : gst :=
  let st1 := match g_region st, m with
    | On, Off =>
        with_cur None
          (match g_cur st with
           | Some (s :: l) => append (PRegion (s :: l) (g_lpol st) (p_units (g_set st))) st
           | _ => st
           end)
    | _, _ => st
    end in
  with_region m st1.

(** rs274x.py:602-616 _evaluate_param (and the attributes of the other statement kinds). *)
Definition evaluate_param (st : gst) (s : stmt) : res gst :=
  match s with
  | SFS zs abs f => Ok (with_set (mkPset zs f abs (p_units (g_set st))) st)
  | SMO true u => Ok (with_set (mkPset (p_zs (g_set st)) (p_fmt (g_set st)) (p_abs (g_set st)) u) st)
  | SIP p => Ok (with_ipol p st)
  | SLP p => Ok (with_lpol p st)
  | SAM name macro _ => do i <- read_macro macro; Ok (with_macros ((name, i) :: g_macros st) st)
  | SAD d name m => define_aperture st d name m
  | _ => Ok st
  end.

Definition tmem (t : text) (l : list string) : bool := existsb (fun s => teq t (T s)) l.
Definition otmem (o : option text) (l : list string) : bool := match o with Some t => tmem t l | None => false end.

(** gerber_statements.py:1061-1069 only_function. *)
Definition only_function (fn : option text) (x y i j : option Qc) (op : option text) : bool :=
  match fn, x, y, i, j, op with Some _, None, None, None, None, None => true | _, _, _, _, _, _ => false end.

(** The centre of an arc in single-quadrant mode (rs274x.py:734-779), which uses atan2: a parameter
    here (direction, start, end, offsets).  See GeomModel.v for the computation itself. *)
Definition centre_fun := direction -> point -> point -> point -> option point.

(** rs274x.py:727-781 _find_center. *)
Definition find_center (fc : centre_fun) (st : gst) (start end_ offs : point) : option point :=
  match g_quad st with
  | SingleQ => fc (g_dir st) start end_ offs
  | MultiQ => Some (fst start + fst offs, snd start + snd offs)
  end.

(** 0 if v is None else v *)
Definition dflt_q (v : option Qc) : Qc := match v with Some q => q | None => 0 end.

(** self.apertures.get(self.aperture, Circle((0, 0), 0)) *)
Definition region_aperture (st : gst) : option loc := zget (g_ap st) (g_aps st).
Definition add_segment (s : seg) (st : gst) : gst :=
  with_cur (Some (match g_cur st with None => [s] | Some l => l ++ [s] end)) st.

(** rs274x.py:640-695: operation D01 *)
Definition draw (fc : centre_fun) (st : gst) (x y : Qc) (i j : option Qc) : res gst :=
  let start := (g_x st, g_y st) in let end_ := (x, y) in
  let pol := g_lpol st in let u := p_units (g_set st) in
  match g_interp st with
  | Linear =>
      match g_region st with
      | Off =>                                                                  (* 644-649 *)
          match zget (g_ap st) (g_aps st) with
          | Some l => Ok (append (PStroke (SgLine start end_ (Some l) pol u)) st)
          | None => Err KeyError
          end
      | On => Ok (add_segment (SgLine start end_ (region_aperture st) pol u) st)  (* 656-668 *)
      end
  | ArcMode =>
      let offs := (dflt_q i, dflt_q j) in
      let c := find_center fc st start end_ offs in                             (* 670-672 *)
      match g_region st with
      | Off =>                                                                  (* 673-678 *)
          match zget (g_ap st) (g_aps st) with
          | Some l => Ok (append (PStroke (SgArc start end_ c (g_dir st) (Some l) (g_quad st) pol u)) st)
          | None => Err KeyError
          end
      | On =>                                                                   (* 680-695 *)
          Ok (with_interp Linear (add_segment (SgArc start end_ c (g_dir st) (region_aperture st) (g_quad st) pol u) st))
      end
  end.

(** rs274x.py:697-705: operation D02 *)
Definition move (st : gst) : gst :=
  match g_region st with
  | On =>
      with_cur None
        (match g_cur st with
         | Some (s1 :: s2 :: l) => append (PRegion (s1 :: s2 :: l) (g_lpol st) (p_units (g_set st))) st
         | _ => st
         end)
  | Off => st
  end.

(** rs274x.py:707-716: operation D03; the copy of the aperture gets position, polarity and units.
    (The branch for AMParamStmt, 717-724, is dead: build returns an AMGroup.) *)
Definition flash (st : gst) (x y : Qc) : res gst :=
  match zget (g_ap st) (g_aps st) with
  | None => Err KeyError
  | Some l =>
      match fetch (g_store st) l with
      | None => Err KeyError    (* unreachable: the table only holds allocated locations *)
      | Some o =>
          let (h1, l') := alloc (g_store st) o in                               (* deepcopy *)
          let h2 := assign h1 l' (set_pos (x, y)) in
          let h3 := assign h2 l' (set_pol (g_lpol st)) in
          let h4 := assign h3 l' (set_units (p_units (g_set st))) in
          Ok (append (PFlash l') (with_store h4 st))
      end
  end.

(** rs274x.py:618-725 _evaluate_coord; also returns the statement, whose op is filled in (637). *)
Definition evaluate_coord (fc : centre_fun) (st : gst) (fn : option text) (sx sy i j : option Qc) (op : option text)
  : res (gst * stmt) :=
  let x := match sx with None => g_x st | Some v => v end in                    (* 619-620 *)
  let y := match sy with None => g_y st | Some v => v end in
  let st := if otmem fn ["G01"; "G1"]%string then with_interp Linear st         (* 622-627 *)
            else if otmem fn ["G02"; "G2"; "G03"; "G3"]%string then
              with_dir (if otmem fn ["G02"; "G2"]%string then Clockwise else Counterclockwise) (with_interp ArcMode st)
            else st in
  if only_function fn sx sy i j op then Ok (st, SCoord fn sx sy i j op)         (* 629-633 *)
  else
    let st := match op with Some o => with_op o st | None => st end in          (* 635-639 *)
    let s' := SCoord fn sx sy i j (Some (g_op st)) in
    do st <- (if tmem (g_op st) ["D01"; "D1"]%string then draw fc st x y i j
              else if tmem (g_op st) ["D02"; "D2"]%string then Ok (move st)
              else if tmem (g_op st) ["D03"; "D3"]%string then flash st x y
              else Ok st);
    Ok (with_xy x y st, s').                                                    (* 725 *)

(** rs274x.py:482-510 evaluate. *)
Definition evaluate (fc : centre_fun) (st : gst) (s : stmt) : res (gst * stmt) :=
  match s with
  | SCoord fn x y i j op => evaluate_coord fc st fn x y i j op
  | SAp d _ => Ok (with_ap d st, s)                                             (* 783-784 *)
  | SReg m => Ok (evaluate_region_mode st m, s)
  | SQuad q => Ok (with_quad q st, s)
  | SCom _ | SUnk _ | SDep _ | SEof => Ok (st, s)
  | _ => do st' <- evaluate_param st s; Ok (st', s)
  end.

(** rs274x.py:267-271 parse_raw: evaluation of every statement, in order; also the list of
    statements kept in the file. *)
Fixpoint evaluate_all (fc : centre_fun) (st : gst) (l : list stmt) : res (gst * list stmt) :=
  match l with
  | [] => Ok (st, [])
  | s :: l' =>
      do r <- evaluate fc st s; let '(st', s') := r in
      do r' <- evaluate_all fc st' l'; let '(st'', l'') := r' in
      Ok (st'', s' :: l'')
  end.

(** The file's extents, rs274x.py:118-147: folds with initial values +-1000000. *)
Definition sentinel : Qc := zq 1000000.
Definition box := (Qc * Qc * (Qc * Qc))%type.      (* ((min_x, max_x), (min_y, max_y)) *)
Definition box0 : box := ((sentinel, - sentinel), (sentinel, - sentinel)).
(** rs274x.py:134-147 bounding_box, given the boxes of the primitives. *)
Definition widen (b : box) (p : box) : box :=
  let '((x0, x1), (y0, y1)) := b in let '((a0, a1), (b0, b1)) := p in
  ((qcmin a0 x0, qcmax a1 x1), (qcmin b0 y0, qcmax b1 y1)).
Definition file_bounding_box (l : list box) : box := fold_left widen l box0.
(** rs274x.py:118-132 bounds. *)
Definition widen_stmt (b : box) (s : stmt) : box :=
  match s with
  | SCoord _ x y _ _ _ =>
      let '((x0, x1), (y0, y1)) := b in
      (match x with Some v => (qcmin v x0, qcmax v x1) | None => (x0, x1) end,
       match y with Some v => (qcmin v y0, qcmax v y1) | None => (y0, y1) end)
  | _ => b
  end.
Definition file_bounds (l : list stmt) : box := fold_left widen_stmt l box0.
(** rs274x.py:113-116 size. *)
Definition file_size (l : list stmt) : Qc * Qc :=
  let '((x0, x1), (y0, y1)) := file_bounds l in (x1 - x0, y1 - y0).
