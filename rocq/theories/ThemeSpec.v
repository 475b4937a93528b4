(** What the image of a board looks like, independently of how it is painted.  Of the model only the data are
    used: settings, themes with their defaults, and pixels. *)
From Verif Require Import PyBase QcLib ThemeModel.
Open Scope Qc_scope.

(** ** Settings *)
Definition is_internal (c : string) : bool := String.eqb c "internal".
Definition internal_before (classes : list string) (i : nat) : nat := List.length (filter is_internal (firstn i classes)).
(** The settings of a class of layers: those given to the theme, else the defaults, else plain black; settings
    given for a class that has no default are not used. *)
Inductive of_class (th : theme) (c : string) : settings -> Prop :=
| class_given s : In c (map fst defaults) -> In (c, Some s) (given th) -> of_class th c s
| class_default s : ~ In c (map fst (given th)) -> In (c, s) defaults -> of_class th c s
| class_none : In (c, None) (given th) -> of_class th c black
| class_other : ~ In c (map fst defaults) -> of_class th c black.
(** The number of internal layers. *)
Definition count (layer : Type) (class_of : layer -> string) (ls : list layer) : nat :=
  List.length (filter (fun l => is_internal (class_of l)) ls).
(** The settings of the i-th of several layers with a theme which has handed out [used] internal settings. *)
Definition chosen (th : theme) (used : nat) (classes : list string) (i : nat) (s : settings) : Prop :=
  exists c, nth_error classes i = Some c /\
    (if is_internal c then nth_error (internals th) (used + internal_before classes i) = Some s else of_class th c s).

(** The background: as given, else the default. *)
Definition of_background (th : theme) (s : settings) : Prop :=
  In ("background"%string, Some s) (given th) \/
  (~ (exists s', In ("background"%string, Some s') (given th)) /\ In ("background"%string, s) defaults).

(** ** Colours *)
(** What is left of the light that passes several layers. *)
Fixpoint through (above : list Qc) : Qc := match above with [] => 1 | o :: above => (1 - o) * through above end.
(** Each of several values, from the lowest layer to the highest, counts with the opacity of its layer as far as
    the layers above let it through. *)
Fixpoint mix (l : list (Qc * Qc)) : Qc :=
  match l with [] => 0 | (c, o) :: above => c * o * through (map snd above) + mix above end.
Definition red (c : color) : Qc := fst (fst c).
Definition green (c : color) : Qc := snd (fst c).
Definition blue (c : color) : Qc := snd c.
(** The pixel made by colours with opacities, from the lowest to the highest. *)
Definition mixed (l : list (color * Qc)) (p : pixel) : Prop :=
  red (fst p) = mix (map (fun x => (red (fst x), snd x)) l) /\
  green (fst p) = mix (map (fun x => (green (fst x), snd x)) l) /\
  blue (fst p) = mix (map (fun x => (blue (fst x), snd x)) l) /\
  snd p = 1 - through (map snd l).
(** Layers with settings and coverages, at a point: the colours with their opacities. *)
Definition seen (P : Type) (ss : list settings) (ms : list (P -> Qc)) (p : P) : list (color * Qc) :=
  map (fun x => (s_color (fst x), s_alpha (fst x) * snd x p)) (combine ss ms).
Definition between01 (q : Qc) : Prop := 0 <= q /\ q <= 1.
Definition good_color (c : color) : Prop := between01 (red c) /\ between01 (green c) /\ between01 (blue c).
Definition good_settings (s : settings) : Prop := good_color (s_color s) /\ between01 (s_alpha s).

(** ** Sides *)
Definition bottom_classes : list string := ["bottom"; "bottommask"; "bottomsilk"]%string.
Definition top_classes : list string := ["top"; "topmask"; "topsilk"]%string.
(** Bottom layers are seen through the board, top layers are not; the openings of a mask are what is drawn. *)
Definition good_sides (th : theme) : Prop :=
  (forall c s, In c bottom_classes -> of_class th c s -> s_mirror s = true) /\
  (forall c s, In c top_classes -> of_class th c s -> s_mirror s = false) /\
  (forall c s, In c ["topmask"; "bottommask"]%string -> of_class th c s -> s_invert s = true).
