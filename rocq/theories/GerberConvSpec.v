(** Specification of unit conversion and offset of Gerber files. *)
From Verif Require Import PyBase QcLib NumModel MacroModel GerberText GerberEval GerberEvalSpec HeapModel HeapSpec GerberConv.
Open Scope Qc_scope.

(** ** Lengths in statements *)
Definition scale_o (f : Qc) (o : option Qc) : option Qc := match o with Some q => Some (f * q) | None => None end.
(** The dimensions of an aperture: for a polygon the diameter, then the number of vertices and the
    rotation, which are not lengths, then the hole. *)
Definition scale_dims (f : Qc) (shape : text) (dims : list Qc) : list Qc :=
  if teq shape (T "P") then
    match dims with
    | d :: n :: r :: holes => f * d :: n :: r :: map (Qcmult f) holes
    | d :: rest => f * d :: rest
    | [] => []
    end
  else map (Qcmult f) dims.
Definition unit_code (u : unit_) : text := match u with Inch => T "G70" | Metric => T "G71" end.
(** The code of the other unit. *)
Definition other_code (u : unit_) : text := match u with Inch => T "G71" | Metric => T "G70" end.
(** The statement, written for unit [u] instead of the other one. *)
Definition in_other_unit (u : unit_) (s : stmt) : stmt :=
  let f := factor u in
  match s with
  | SMO p _ => SMO p u
  | SAD d shape mods => SAD d shape (map (scale_dims f shape) mods)
  | SOF a b => SOF (scale_o f a) (scale_o f b)
  | SCoord fn x y i j op =>
      SCoord (match fn with Some t => Some (if teq t (other_code u) then unit_code u else t) | None => None end)
             (scale_o f x) (scale_o f y) (scale_o f i) (scale_o f j) op
  | _ => s                                            (* scale factors, counts, names, ... *)
  end.
(** Statements with nothing but lengths and text: no polygon or macro aperture, no scale factor. *)
Definition lengths_only (s : stmt) : Prop :=
  match s with
  | SAD _ shape _ => shape = T "C" \/ shape = T "R" \/ shape = T "O"
  | SSF _ _ | SAM _ _ _ => False
  | _ => True
  end.

(** ** Files in one unit *)
(** The statement does not mention the other unit. *)
Definition agrees (w : unit_) (s : stmt) : Prop :=
  match s with
  | SMO _ u => u = w
  | SCoord (Some fn) _ _ _ _ _ => fn <> other_code w
  | _ => True
  end.
Definition file_in (w : unit_) (f : gfile) : Prop :=
  f_units f = w /\
  Forall (fun s => snd s = w /\ agrees w (fst s)) (f_stmts f) /\
  proper_heap (f_heap f) /\ Forall (fun l => l < List.length (f_heap f))%nat (f_prims f) /\
  all_in w (f_heap f) (f_prims f).
(** [f'] is [f] in unit [u] instead of the other one: the statements rewritten, every object of the
    graph converted exactly once. *)
Definition converted (u : unit_) (f f' : gfile) : Prop :=
  f_units f' = u /\ f_prims f' = f_prims f /\
  map fst (f_stmts f') = map (in_other_unit u) (map fst (f_stmts f)) /\
  converts_exactly u (f_heap f) (f_prims f) (f_heap f').

(** A list of statements that is in unit [w] throughout: nothing is defined or drawn before the
    unit is declared (inches need no declaration), and no statement mentions the other unit. *)
Definition defines_nothing (s : stmt) : Prop := match s with SAD _ _ _ | SCoord _ _ _ _ _ _ => False | _ => True end.
Definition all_in_unit (w : unit_) (l : list stmt) : Prop :=
  Forall (agrees w) l /\
  (w = Inch \/ exists pre post, l = (pre ++ SMO true w :: post)%list /\ Forall defines_nothing pre).
(** No region of just one segment is filled. *)
Definition no_single_segment (fc : centre_fun) (l : list stmt) : Prop :=
  forall ms s pol u, image fc [] l = Some ms -> ~ In (Fill [s] pol u) ms.

(** ** Translation *)
Definition plus (d : Qc * Qc) (p : point) : point := (fst p + fst d, snd p + snd d).
Definition translate_seg (d : Qc * Qc) (s : vseg) : vseg :=
  match s with
  | VLine a b ap pol u => VLine (plus d a) (plus d b) ap pol u
  | VArc a b c dir ap q pol u => VArc (plus d a) (plus d b) (omap (plus d) c) dir ap q pol u
  end.
Definition translate (d : Qc * Qc) (m : mark) : mark :=
  match m with
  | Stroke s => Stroke (translate_seg d s)
  | Fill l pol u => Fill (map (translate_seg d) l) pol u
  | Stamp o => Stamp (mkObj (o_shape o) (omap (plus d) (o_pos o)) (o_pol o) (o_units o))
  end.
(** Statements without arc centre offsets. *)
Definition no_offsets (s : stmt) : Prop := match s with SCoord _ _ _ (Some _) _ _ | SCoord _ _ _ _ (Some _) _ => False | _ => True end.
(** Both coordinates are given explicitly, by a move, before anything is drawn. *)
Definition positioned (l : list stmt) : Prop :=
  exists pre fn x y post, l = (pre ++ SCoord fn (Some x) (Some y) None None (Some (T "D02")) :: post)%list /\
    Forall (fun s => match s with SCoord _ None None None None None => mode_only s = true | SCoord _ _ _ _ _ _ => False | _ => True end) pre.
(** Moving the end points of an arc moves its centre. *)
Definition equivariant (fc : centre_fun) : Prop :=
  forall dir a b o d, fc dir (plus d a) (plus d b) o = omap (plus d) (fc dir a b o).
(** Every arc has a centre. *)
Definition centred_seg (s : vseg) : Prop := match s with VArc _ _ None _ _ _ _ _ => False | _ => True end.
Definition centred (m : mark) : Prop :=
  match m with Stroke s => centred_seg s | Fill l _ _ => Forall centred_seg l | Stamp _ => True end.
