(** Specification of the image of a Gerber file, independent of the evaluator: every modal value is
    found by looking back over the statements that came before ([past], most recent first), and
    every statement contributes its own marks. *)
From Verif Require Import PyBase QcLib MacroModel GerberText GerberEval.
Open Scope Qc_scope.

(** ** What is drawn *)

Inductive vseg :=
| VLine (a b : point) (ap : option obj) (pol : polarity) (u : unit_)
| VArc (a b : point) (c : option point) (d : direction) (ap : option obj) (q : quadrant) (pol : polarity) (u : unit_).
Inductive mark :=
| Stroke (s : vseg)
| Fill (l : list vseg) (pol : polarity) (u : unit_)
| Stamp (o : obj).

(** Primitives with their aperture objects looked up. *)
Definition deref_ap (h : store) (l : option loc) : option obj :=
  match l with Some l => fetch h l | None => None end.
Definition deref_seg (h : store) (s : seg) : vseg :=
  match s with
  | SgLine a b ap pol u => VLine a b (deref_ap h ap) pol u
  | SgArc a b c d ap q pol u => VArc a b c d (deref_ap h ap) q pol u
  end.
Definition deref (h : store) (p : prim) : option mark :=
  match p with
  | PStroke s => Some (Stroke (deref_seg h s))
  | PRegion l pol u => Some (Fill (map (deref_seg h) l) pol u)
  | PFlash l => match fetch h l with Some o => Some (Stamp o) | None => None end
  end.
(** The image: what the primitives look like once evaluation has ended. *)
Definition shown (st : gst) : list (option mark) := map (deref (g_store st)) (g_prims st).

(** ** Modal values *)

(** The value set by the most recent statement that sets one. *)
Fixpoint latest {A} (f : stmt -> option A) (d : A) (past : list stmt) : A :=
  match past with
  | [] => d
  | s :: p => match f s with Some a => a | None => latest f d p end
  end.

Definition sets_x s := match s with SCoord _ (Some x) _ _ _ _ => Some x | _ => None end.
Definition sets_y s := match s with SCoord _ _ (Some y) _ _ _ => Some y | _ => None end.
Definition sets_op s := match s with SCoord _ _ _ _ _ (Some o) => Some o | _ => None end.
Definition sets_selection s := match s with SAp d _ => Some d | _ => None end.
Definition sets_polarity s := match s with SLP p => Some p | _ => None end.
Definition sets_units s := match s with SMO true u => Some u | _ => None end.
Definition sets_quadrant s := match s with SQuad q => Some q | _ => None end.
Inductive motion := Straight | Clockwise_arc | Counterclockwise_arc.
Definition motion_code (t : text) : option motion :=
  if teq t (T "G01") then Some Straight else if teq t (T "G1") then Some Straight
  else if teq t (T "G02") then Some Clockwise_arc else if teq t (T "G2") then Some Clockwise_arc
  else if teq t (T "G03") then Some Counterclockwise_arc else if teq t (T "G3") then Some Counterclockwise_arc
  else None.
Definition sets_motion s := match s with SCoord (Some f) _ _ _ _ _ => motion_code f | _ => None end.

Definition current_point (past : list stmt) : point := (latest sets_x 0 past, latest sets_y 0 past).
Definition current_op := latest sets_op (T "D02").
Definition current_selection := latest sets_selection 0%Z.
Definition current_polarity := latest sets_polarity Dark.
Definition current_units := latest sets_units Inch.
Definition current_quadrant := latest sets_quadrant MultiQ.
Definition sets_region s := match s with SReg m => Some m | _ => None end.
Definition in_region := latest sets_region Off.

Inductive operation := Draw | Move | Flash | Other.
Definition operation_of (o : text) : operation :=
  if teq o (T "D01") then Draw else if teq o (T "D1") then Draw
  else if teq o (T "D02") then Move else if teq o (T "D2") then Move
  else if teq o (T "D03") then Flash else if teq o (T "D3") then Flash
  else Other.

(** The body of the latest macro of that name. *)
Fixpoint macro_body (name : text) (past : list stmt) : option text :=
  match past with
  | [] => None
  | SAM n body _ :: p => if teq n name then Some body else macro_body name p
  | _ :: p => macro_body name p
  end.

(** The whole part of a number: 2 for 2.7, -2 for -2.7. *)
Definition whole_part (q : Qc) : Z := (Z.sgn (Qnum (this q)) * (Z.abs (Qnum (this q)) / Zpos (Qden (this q))))%Z.
(** What an aperture definition stands for: the dimensions, then optionally the diameter of a round
    hole or the sides of a rectangular one. *)
Definition definition (past : list stmt) (name : text) (dims : list Qc) : option shape :=
  if teq name (T "C") then
    match dims with
    | [d; h] => Some (ShCircle d h 0 0)
    | [d; w; h] => Some (ShCircle d 0 w h)
    | d :: _ => Some (ShCircle d 0 0 0)
    | [] => None
    end
  else if teq name (T "R") then
    match dims with
    | [w; h; d] => Some (ShRect w h d 0 0)
    | [w; h; a; b] => Some (ShRect w h 0 a b)
    | w :: h :: _ => Some (ShRect w h 0 0 0)
    | _ => None
    end
  else if teq name (T "O") then
    match dims with
    | [w; h; d] => Some (ShObround w h d 0 0)
    | [w; h; a; b] => Some (ShObround w h 0 a b)
    | w :: h :: _ => Some (ShObround w h 0 0 0)
    | _ => None
    end
  else if teq name (T "P") then
    match dims with
    | [d; n] => Some (ShPolygon (whole_part n) (d / zq 2) 0 0 0 0)
    | [d; n; r] => Some (ShPolygon (whole_part n) (d / zq 2) r 0 0 0)
    | [d; n; r; h] => Some (ShPolygon (whole_part n) (d / zq 2) r h 0 0)
    | d :: n :: r :: a :: b :: _ => Some (ShPolygon (whole_part n) (d / zq 2) r 0 a b)
    | _ => None
    end
  else
    match macro_body name past with
    | None => None
    | Some body =>
        match read_macro body with
        | Err _ => None
        | Ok i => match eval_macro [] i (PSeq dims) with Ok (ps, _) => Some (ShMacro ps) | Err _ => None end
        end
    end.

(** The aperture that number [d] stands for: its latest definition, in the units of that time. *)
Fixpoint aperture_of (d : Z) (past : list stmt) : option obj :=
  match past with
  | [] => None
  | SAD d' name mods :: p =>
      if Z.eq_dec d' d then
        match definition p name (hd [] mods) with Some s => Some (mkObj s None Dark (current_units p)) | None => None end
      else aperture_of d p
  | _ :: p => aperture_of d p
  end.

(** ** The marks of one statement *)

Definition or_else {A} (o : option A) (d : A) : A := match o with Some a => a | None => d end.

(** A statement that only selects the kind of motion. *)
Definition mode_only (s : stmt) : bool :=
  match s with SCoord (Some _) None None None None None => true | _ => false end.
(** What a statement does, given the statements before it. *)
Definition action (past : list stmt) (s : stmt) : operation :=
  match s with
  | SCoord _ _ _ _ _ op => if mode_only s then Other else operation_of (or_else op (current_op past))
  | _ => Other
  end.
(** The kind of motion: the latest selected, except that drawing inside a region ends an arc mode
    (a convention the code shares with other viewers, rs274x.py:693-695). *)
Fixpoint current_motion (past : list stmt) : motion :=
  match past with
  | [] => Straight
  | s :: p =>
      match action p s, in_region p with
      | Draw, On => Straight
      | _, _ => or_else (sets_motion s) (current_motion p)
      end
  end.
(** The point a statement names. *)
Definition target (past : list stmt) (s : stmt) : point :=
  match s with
  | SCoord _ x y _ _ _ => (or_else x (fst (current_point past)), or_else y (snd (current_point past)))
  | _ => current_point past
  end.
(** The line or arc a drawing statement describes; [a] is the aperture. *)
Definition path (fc : centre_fun) (past : list stmt) (s : stmt) (a : option obj) : vseg :=
  let here := current_point past in let there := target past s in
  let pol := current_polarity past in let u := current_units past in let q := current_quadrant past in
  let offs := match s with SCoord _ _ _ i j _ => (or_else i 0, or_else j 0) | _ => (0, 0) end in
  let centre d := match q with MultiQ => Some (fst here + fst offs, snd here + snd offs) | SingleQ => fc d here there offs end in
  match or_else (sets_motion s) (current_motion past) with
  | Straight => VLine here there a pol u
  | Clockwise_arc => VArc here there (centre Clockwise) Clockwise a q pol u
  | Counterclockwise_arc => VArc here there (centre Counterclockwise) Counterclockwise a q pol u
  end.
(** The contour under construction: the segments drawn since the region began or the last move in it. *)
Fixpoint contour (fc : centre_fun) (past : list stmt) : list vseg :=
  match past with
  | [] => []
  | s :: p =>
      match s, in_region p, action p s with
      | SReg Off, _, _ => []
      | _, On, Move => []
      | _, On, Draw => contour fc p ++ [path fc p s (aperture_of (current_selection p) p)]
      | _, _, _ => contour fc p
      end
  end.

(** [None]: an undefined aperture is used. *)
Definition marks (fc : centre_fun) (past : list stmt) (s : stmt) : option (list mark) :=
  let pol := current_polarity past in let u := current_units past in
  let a := aperture_of (current_selection past) past in
  match s with
  | SReg Off =>
      match in_region past, contour fc past with On, _ :: _ => Some [Fill (contour fc past) pol u] | _, _ => Some [] end
  | _ =>
      match action past s, in_region past with
      | Other, _ => Some []
      | Move, Off => Some []
      | Move, On => match contour fc past with _ :: _ :: _ => Some [Fill (contour fc past) pol u] | _ => Some [] end
      | Draw, On => Some []
      | Draw, Off => match a with Some _ => Some [Stroke (path fc past s a)] | None => None end
      | Flash, _ => match a with Some o => Some [Stamp (mkObj (o_shape o) (Some (target past s)) pol u)] | None => None end
      end
  end.

(** The image of a list of statements; [None] when an undefined aperture is used. *)
Fixpoint image (fc : centre_fun) (past : list stmt) (l : list stmt) : option (list mark) :=
  match l with
  | [] => Some []
  | s :: l' =>
      match marks fc past s, image fc (s :: past) l' with
      | Some a, Some b => Some (a ++ b)
      | _, _ => None
      end
  end.

(** Aperture definitions that are complete: enough dimensions, a known macro that can be evaluated;
    macro definitions that can be read. *)
Fixpoint definitions_ok (past : list stmt) (l : list stmt) : Prop :=
  match l with
  | [] => True
  | s :: l' =>
      (match s with
       | SAD _ name mods => exists dims rest sh, mods = dims :: rest /\ definition past name dims = Some sh
       | SAM _ body _ => exists i, read_macro body = Ok i
       | _ => True
       end) /\ definitions_ok (s :: past) l'
  end.

(** ** Statements without effect on the image *)
Definition neutral (s : stmt) : bool :=
  match s with SCom _ | SUnk _ | SDep _ | SEof => true | _ => false end.

(** ** Omitted fields *)

(** [s'] is [s] with some of the omitted coordinates and the omitted operation filled in with the
    value in force. *)
Definition filled_field {A} (current : A) (o o' : option A) : Prop := o' = o \/ (o = None /\ o' = Some current).
Definition filled (past : list stmt) (s s' : stmt) : Prop :=
  match s with
  | SCoord fn x y i j op =>
      if mode_only s then s' = s
      else exists x' y' op', s' = SCoord fn x' y' i j op' /\
             filled_field (fst (current_point past)) x x' /\ filled_field (snd (current_point past)) y y' /\
             filled_field (current_op past) op op'
  | _ => s' = s
  end.
Inductive filled_list : list stmt -> list stmt -> list stmt -> Prop :=
| F_nil past : filled_list past [] []
| F_cons past s s' l l' : filled past s s' -> filled_list (s :: past) l l' -> filled_list past (s :: l) (s' :: l').

(** ** Regions *)

(** The contours drawn by the statements of a region: runs of draws separated by moves, with the
    polarity and units in force where each run ends.  The last run is the open one. *)
Inductive event := Segment (s : vseg) | Break (pol : polarity) (u : unit_).
Fixpoint contours (run : list vseg) (l : list event) : list (list vseg * polarity * unit_) * list vseg :=
  match l with
  | [] => ([], run)
  | Segment s :: l' => contours (run ++ [s]) l'
  | Break pol u :: l' => let (c, open) := contours [] l' in ((run, pol, u) :: c, open)
  end.

(** What a statement inside a region contributes to the contours. *)
Definition region_event (fc : centre_fun) (past : list stmt) (s : stmt) : list event :=
  match action past s with
  | Move => [Break (current_polarity past) (current_units past)]
  | Draw => [Segment (path fc past s (aperture_of (current_selection past) past))]
  | _ => []
  end.
Fixpoint region_events (fc : centre_fun) (past body : list stmt) : list event :=
  match body with
  | [] => []
  | s :: body' => region_event fc past s ++ region_events fc (s :: past) body'
  end.
(** The filled areas of a region: every closed contour of at least two segments, and the last one
    if it has any segment. *)
Definition region_fills (fc : centre_fun) (past body : list stmt) : list mark :=
  let (closed, open) := contours [] (region_events fc past body) in
  flat_map (fun '(run, pol, u) => match run with _ :: _ :: _ => [Fill run pol u] | _ => [] end) closed ++
  (match open with
   | [] => []
   | _ => [Fill open (current_polarity (rev body ++ past)) (current_units (rev body ++ past))]
   end).
Definition is_fill (m : mark) : bool := match m with Fill _ _ _ => true | _ => false end.
Definition is_stroke (m : mark) : bool := match m with Stroke _ => true | _ => false end.
Definition no_region_change (l : list stmt) : Prop := Forall (fun s => forall m, s <> SReg m) l.

(** ** Extents *)

(** [v] is the least (greatest) element of [l]. *)
Definition least (v : Qc) (l : list Qc) : Prop := In v l /\ forall w, In w l -> v <= w.
Definition greatest (v : Qc) (l : list Qc) : Prop := In v l /\ forall w, In w l -> w <= v.
(** The box [b] is the smallest one with these left, right, bottom and top sides inside. *)
Definition tight (b : box) (lefts rights bottoms tops : list Qc) : Prop :=
  least (fst (fst b)) lefts /\ greatest (snd (fst b)) rights /\ least (fst (snd b)) bottoms /\ greatest (snd (snd b)) tops.
(** Every coordinate is within [-m, m]. *)
Definition limited (m : Qc) (l : list Qc) : Prop := forall v, In v l -> - m <= v /\ v <= m.
Definition box_sides (p : box) : list Qc := [fst (fst p); snd (fst p); fst (snd p); snd (snd p)].
(** The coordinates in the statements of a file. *)
Definition x_coords (l : list stmt) : list Qc := flat_map (fun s => match s with SCoord _ (Some x) _ _ _ _ => [x] | _ => [] end) l.
Definition y_coords (l : list stmt) : list Qc := flat_map (fun s => match s with SCoord _ _ (Some y) _ _ _ => [y] | _ => [] end) l.
