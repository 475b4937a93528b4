(** When two macro shapes are the same, and what it means for a file to contain the macro flashes that were
    rendered. *)
From Verif Require Import PyBase QcLib NumModel NumSpec GerberText GerberTextSpec GerberEval GerberEvalSpec MacroModel AmModel AmSpec WriterModel WriterSpec.
From Verif Require Export AmRenderModel.
Open Scope Qc_scope.
Open Scope list_scope.

(** ** The same shape at another place *)

(** At most half a millionth apart, in x and in y. *)
Definition near (a b : Qc) : Prop := qabs (a - b) <= Q2Qc (1 # 2000000).
(** [p] is where [q] is when moved by [o]. *)
Definition moved_to (o q p : point) : Prop := near (fst p) (fst q + fst o) /\ near (snd p) (snd q + snd o).
Definition line_moved (o : point) (k l : point * point) : Prop := moved_to o (fst k) (fst l) /\ moved_to o (snd k) (snd l).
(** [x] looks like [y] moved by [o]. *)
Definition looks_like (o : point) (y x : part) : Prop :=
  match y, x with
  | GLine a' b' ap' pol', GLine a b ap pol => line_moved o (a', b') (a, b) /\ ap = ap' /\ pol = pol'
  | GCircle p' d' hs' pol', GCircle p d hs pol => moved_to o p' p /\ d = d' /\ hs = hs' /\ pol = pol'
  | GRect p' w' h' r' hs' pol', GRect p w h r hs pol => moved_to o p' p /\ w = w' /\ h = h' /\ r = r' /\ hs = hs' /\ pol = pol'
  | GPoly p' n' r' t' hs' pol', GPoly p n r t hs pol => moved_to o p' p /\ n = n' /\ r = r' /\ t = t' /\ hs = hs' /\ pol = pol'
  | GOutline l' pol', GOutline l pol => Forall2 (line_moved o) l' l /\ pol = pol'
  | _, _ => False
  end.
(** What is compared: the kind, the places, and of the rest only some dimensions. *)
Definition compares (o : point) (y x : part) : Prop :=
  match y, x with
  | GLine a' b' _ _, GLine a b _ _ => line_moved o (a', b') (a, b)
  | GCircle p' d' (hd', _, _) _, GCircle p d (hd, _, _) _ => moved_to o p' p /\ d = d' /\ hd = hd'
  | GRect p' w' h' r' (hd', _, _) _, GRect p w h r (hd, _, _) _ => moved_to o p' p /\ w = w' /\ h = h' /\ r = r' /\ hd = hd'
  | GPoly p' n' r' _ _ _, GPoly p n r _ _ _ => moved_to o p' p /\ n = n' /\ r = r'
  | GOutline l' _, GOutline l _ => Forall2 (line_moved o) l' l
  | _, _ => False
  end.
(** From the position of the flash [k] to that of [g]. *)
Definition displacement (k g : group) : point :=
  (fst (gr_position g) - fst (gr_position k), snd (gr_position g) - snd (gr_position k)).
Definition same_looks (k g : group) : Prop := Forall2 (looks_like (displacement k g)) (gr_parts k) (gr_parts g).
Definition same_compared (k g : group) : Prop := Forall2 (compares (displacement k g)) (gr_parts k) (gr_parts g).

(** ** Files with flashes of macros *)

(** The modifiers of the primitives of an aperture, read as the primitives of a macro statement. *)
Definition primitives_of (l : list (Z * list mval)) : res (list amprim) := mapM (fun y => from_gerber (yield_text y)) l.
(** A flash of an aperture with the primitives of the macro flashed, at its position, with its polarity. *)
Definition item_reads (u : unit_) (x : gitem) (m : mark) : Prop :=
  match x, m with
  | Plain x, _ => reads_as u x m
  | Macro _ g, Stamp o => exists l, primitives_of l = Ok (gr_prims g) /\
      o = mkObj (ShMacro l) (Some (gr_position g)) (or_else (gr_polarity g) Dark) u
  | _, _ => False
  end.
(** Macros that draw something and whose primitives can be written exactly. *)
Definition item_supported (fc : centre_fun) (o : options) (x : gitem) : Prop :=
  match x with
  | Plain x => supported fc o x
  | Macro _ g => gr_parts g <> [] /\ gr_prims g <> [] /\ Forall prim_writable (gr_prims g)
  end.
Definition gitem_exact (st : pset) (x : gitem) : Prop :=
  match x with
  | Plain x => item_exact st x
  | Macro cm g => (forall t, cm = Some t -> Forall (fun x => ~ In x (T "*%" ++ [nl; cr])) t) /\ point_on_grid st (gr_position g)
  end.
(** Characters that can stand in a macro's name. *)
Definition name_digits (digits : part -> text) : Prop :=
  forall x, Forall (fun c => In c (letter ++ T "0123456789+-")) (digits x).
Definition groups (l : list gitem) : list group := flat_map (fun x => match x with Macro _ g => [g] | Plain _ => [] end) l.
(** Macros that compare as the same are the same. *)
Definition told_apart (l : list group) : Prop :=
  forall k g, In k l -> In g l -> same_compared k g -> gr_prims k = gr_prims g.
(** Rendering [items] and writing the file gives a text that, read and evaluated, shows the items in order. *)
Definition file_shows (fc : centre_fun) (digits : part -> text) (o : options) (st : pset) (items : list gitem) : Prop :=
  exists c t, render_list digits o items (new_renderer st) = Ok c /\ dump st (fst c) = Ok t /\
    forall fs, exists l st' g l' ms, parse_text fs t = Ok (l, st') /\ p_units st' = p_units st /\
      evaluate_all fc g_init l = Ok (g, l') /\ shown g = map Some ms /\ Forall2 (item_reads (p_units st)) items ms.

(** A shape moved exactly. *)
Definition translate (o p : point) : point := (fst p + fst o, snd p + snd o).
Definition moved_part (o : point) (x : part) : part :=
  match x with
  | GLine a b ap pol => GLine (translate o a) (translate o b) ap pol
  | GCircle p d hs pol => GCircle (translate o p) d hs pol
  | GRect p w h r hs pol => GRect (translate o p) w h r hs pol
  | GPoly p n r t hs pol => GPoly (translate o p) n r t hs pol
  | GOutline l pol => GOutline (map (fun s => (translate o (fst s), translate o (snd s))) l) pol
  end.
Definition is_moved (k g : group) : Prop := gr_parts g = map (moved_part (displacement k g)) (gr_parts k).
