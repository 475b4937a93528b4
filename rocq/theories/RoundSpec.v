(** What may change when a Gerber file is written in its number format and read again: coordinates
    by at most half a unit of the last decimal place, dimensions of apertures by one part in 2000. *)
From Verif Require Export PyBase QcLib NumModel NumSpec GerberText GerberTextSpec GerberEval GerberEvalSpec.
Open Scope list_scope.
Open Scope Qc_scope.

(** ** Numbers *)
Definition within (e v w : Qc) : Prop := qabs (v - w) <= e.
(** Off by at most one part in 2000. *)
Definition about (v w : Qc) : Prop := qabs (v - w) <= qabs v * Q2Qc (1 # 2000).
Definition maybe {A} (R : A -> A -> Prop) (a b : option A) : Prop :=
  match a, b with Some x, Some y => R x y | None, None => True | _, _ => False end.

(** ** Statements *)
(** The coordinates fit the number format (they need not be multiples of its last decimal place);
    definitions of circles, rectangles, obrounds and polygons have any dimensions, but a polygon has
    a whole number of corners; other statements can be written. *)
Definition opt_fits (st : pset) (o : option Qc) : Prop :=
  match o with Some v => fits (fst (p_fmt st)) (snd (p_fmt st)) v | None => True end.
Definition whole_corners (shape : text) (l : list Qc) : Prop :=
  shape = T "P" -> match l with _ :: n :: _ => exists k, (0 <= k < 10000)%Z /\ n = zq k | _ => True end.
Inductive fitting (st : pset) : stmt -> Prop :=
| Fit_coord fn x y i j op : from_list functions fn -> from_list operations op ->
    opt_fits st x -> opt_fits st y -> opt_fits st i -> opt_fits st j ->
    (fn, x, y, i, j, op) <> (None, None, None, None, None, None) -> fitting st (SCoord fn x y i j op)
| Fit_define d shape l : (0 <= d)%Z -> In shape [T "C"; T "R"; T "O"; T "P"] -> l <> [] -> whole_corners shape l ->
    fitting st (SAD d shape [l])
| Fit_other s : line_writable st s -> (forall fn x y i j op, s <> SCoord fn x y i j op) -> (forall d shape m, s <> SAD d shape m) ->
    fitting st s.

(** [s'] is [s] with its numbers rounded. *)
Inductive rounded (e : Qc) : stmt -> stmt -> Prop :=
| Rd_coord fn x y i j op x' y' i' j' : maybe (within e) x x' -> maybe (within e) y y' -> maybe (within e) i i' -> maybe (within e) j j' ->
    rounded e (SCoord fn x y i j op) (SCoord fn x' y' i' j' op)
| Rd_define d shape l l' : In shape [T "C"; T "R"; T "O"; T "P"] -> Forall2 about l l' -> whole_corners shape l ->
    (shape = T "P" -> nth 1 l' 0 = nth 1 l 0) -> rounded e (SAD d shape [l]) (SAD d shape [l'])
| Rd_same s : (forall fn x y i j op, s <> SCoord fn x y i j op) -> (forall d shape m, s <> SAD d shape m) -> rounded e s s.

(** ** Images *)
Definition near_point (e : Qc) (p q : point) : Prop := within e (fst p) (fst q) /\ within e (snd p) (snd q).
Inductive near_shape : shape -> shape -> Prop :=
| N_circle d hd hw hh d' hd' hw' hh' : about d d' -> about hd hd' -> about hw hw' -> about hh hh' ->
    near_shape (ShCircle d hd hw hh) (ShCircle d' hd' hw' hh')
| N_rect w h hd hw hh w' h' hd' hw' hh' : about w w' -> about h h' -> about hd hd' -> about hw hw' -> about hh hh' ->
    near_shape (ShRect w h hd hw hh) (ShRect w' h' hd' hw' hh')
| N_obround w h hd hw hh w' h' hd' hw' hh' : about w w' -> about h h' -> about hd hd' -> about hw hw' -> about hh hh' ->
    near_shape (ShObround w h hd hw hh) (ShObround w' h' hd' hw' hh')
| N_polygon n r rot hd hw hh r' rot' hd' hw' hh' : about r r' -> about rot rot' -> about hd hd' -> about hw hw' -> about hh hh' ->
    near_shape (ShPolygon n r rot hd hw hh) (ShPolygon n r' rot' hd' hw' hh').
(** Same polarity and units. *)
Definition near_obj (e : Qc) (a b : obj) : Prop :=
  near_shape (o_shape a) (o_shape b) /\ maybe (near_point e) (o_pos a) (o_pos b) /\ o_pol a = o_pol b /\ o_units a = o_units b.
(** The centre of an arc is given from its start, so that both roundings add up; in single quadrant
    mode it is chosen by a rule that need not be continuous, and nothing is claimed about it. *)
Inductive near_seg (e : Qc) : vseg -> vseg -> Prop :=
| N_line a b ap pol u a' b' ap' : near_point e a a' -> near_point e b b' -> maybe (near_obj e) ap ap' ->
    near_seg e (VLine a b ap pol u) (VLine a' b' ap' pol u)
| N_arc a b c d ap q pol u a' b' c' ap' : near_point e a a' -> near_point e b b' -> maybe (near_obj e) ap ap' ->
    (q = MultiQ -> maybe (near_point (e + e)) c c') -> near_seg e (VArc a b c d ap q pol u) (VArc a' b' c' d ap' q pol u).
Inductive near (e : Qc) : mark -> mark -> Prop :=
| N_stroke s s' : near_seg e s s' -> near e (Stroke s) (Stroke s')
| N_fill l l' pol u : Forall2 (near_seg e) l l' -> near e (Fill l pol u) (Fill l' pol u)
| N_stamp o o' : near_obj e o o' -> near e (Stamp o) (Stamp o').
