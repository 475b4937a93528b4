(** Which images gerber-render should write and what they should show. *)
From Coq Require Import Permutation Sorted.
From Verif Require Import PyBase QcLib ThemeModel ThemeSpec LayersSpec DirSpec.
Open Scope list_scope.
Open Scope Qc_scope.

(** The outline, when there is one, comes before the other layers. *)
Definition outline (x : layer) : Prop := l_class x = "outline"%string.
Definition outline_first (L l rest : list layer) : Prop :=
  (exists o, In o L /\ outline o /\ l = o :: rest) \/ ((forall o, In o L -> ~ outline o) /\ l = rest).
(** [l] are those of the layers [L] that have a property. *)
Definition those (Q : layer -> Prop) (L l : list layer) : Prop := forall p, (forall x, p x = true <-> Q x) -> Permutation l (filter p L).

(** A side of the board: copper, mask and silk going outwards, and the holes behind the innermost of them. *)
Definition side_view (s : side) (L l : list layer) : Prop :=
  exists x r d, outline_first L l (x :: d ++ r) /\ those (fun x => copper_mask_silk s (l_class x) \/ drills_to s x) L (x :: d ++ r) /\
    Forall (drills_to s) d /\ StronglySorted (outwards s) (x :: r) /\ Forall (fun y => copper_mask_silk s (l_class y)) (x :: r).
(** The copper of all layers, from the bottom to the top, and on top of them [holes]. *)
Definition is_drill (x : layer) : Prop := l_class x = "drill"%string.
Definition copper_view (L l : list layer) : Prop :=
  exists c d, outline_first L l (c ++ d) /\ those copper L c /\ StronglySorted (fun x y => above y x) c /\
    ((exists o, In o L /\ outline o) -> those is_drill L d) /\ ((forall o, In o L -> ~ outline o) -> d = []).

(** [im] shows the layers [ls] one on top of the other, with the settings of the theme, on a background. *)
Definition shows {P} (draw : settings -> layer -> res (P -> Qc)) (th : theme) (bg : settings) (ls : list layer) (im : P -> pixel) : Prop :=
  exists ss ms, List.length ss = List.length ls /\ (forall i s, nth_error ss i = Some s -> chosen th 0 (map l_class ls) i s) /\
    Forall2 (fun x m => draw (fst x) (snd x) = Ok m) (combine ss ls) ms /\
    forall p, mixed ((s_color bg, s_alpha bg) :: seen P ss ms p) (im p).
(** ... on the background of the theme. *)
Definition shows_board {P} draw th ls (im : P -> pixel) : Prop := exists bg, of_background th bg /\ shows draw th bg ls im.

Definition number_of (c : string) (L : list layer) : nat := List.length (filter (fun x => String.eqb (l_class x) c) L).
(** The layers of a list of files. *)
Fixpoint file_layers (id : nat) (ks : list (text * camkind)) : list layer :=
  match ks with [] => [] | (f, k) :: ks => from_cam id k f :: file_layers (S id) ks end.
