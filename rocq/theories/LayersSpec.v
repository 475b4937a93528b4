(** What detection, layer sorting and board sides are expected to do, stated without the model's
    helper functions. *)
From Coq Require Import Permutation Sorted.
From Verif Require Export LayersModel.
Open Scope list_scope.

(** ** File formats *)

(** The text whose lines are [ls]. *)
Fixpoint text_of (ls : list text) : text :=
  match ls with [] => [] | [l] => l | l :: r => l ++ nl :: text_of r end.
Definition is_line (l : text) : Prop := ~ In nl l.

Definition contains (p l : text) : Prop := exists a b, l = a ++ p ++ b.
Definition blank (s : text) : Prop := Forall (fun c => is_space c = true) s.

(** The first two words of the line are "P" and "JOB". *)
Definition job_line (l : text) : Prop :=
  exists a b r, l = a ++ T "P" ++ b ++ T "JOB" ++ r /\ blank a /\ blank b /\ b <> [] /\
                (r = [] \/ exists c r', r = c :: r' /\ is_space c = true).

Inductive tells (l : text) : ffmt -> Prop :=
| tells_excellon : contains (T "M48") l -> tells l Excellon
| tells_gerber : ~ contains (T "M48") l -> contains (T "%FS") l -> tells l Rs274x
| tells_ipc : ~ contains (T "M48") l -> ~ contains (T "%FS") l -> job_line l -> tells l IpcD356.

Definition silent (l : text) : Prop := forall f, ~ tells l f.

(** ** Layers *)

(** The place of a layer class in the stack, counted from the top; drills and drawings behind. *)
Definition place (c : string) : option nat :=
  if String.eqb c "outline" then Some 0 else
  if String.eqb c "toppaste" then Some 1 else
  if String.eqb c "topsilk" then Some 2 else
  if String.eqb c "topmask" then Some 3 else
  if String.eqb c "top" then Some 4 else
  if String.eqb c "internal" then Some 5 else
  if String.eqb c "bottom" then Some 6 else
  if String.eqb c "bottommask" then Some 7 else
  if String.eqb c "bottomsilk" then Some 8 else
  if String.eqb c "bottompaste" then Some 9 else
  if String.eqb c "drill" then Some 10 else
  if String.eqb c "drawing" then Some 11 else
  None.

Definition known (x : layer) : bool := match place (l_class x) with Some _ => true | None => false end.
Definition stacked (x : layer) : bool := match place (l_class x) with Some n => (n <? 10)%nat | None => false end.

(** [x] belongs above [y]; internal layers by number. *)
Definition above (x y : layer) : Prop :=
  exists n m, place (l_class x) = Some n /\ place (l_class y) = Some m /\
    (n < m \/ n = m /\ (l_class x = "internal"%string -> (l_order x <= l_order y)%Z))%nat.

(** Nothing orders [x] and [y]. *)
Definition tied (x y : layer) : bool :=
  String.eqb (l_class x) (l_class y) &&
  (negb (String.eqb (l_class x) "internal") || (l_order x =? l_order y)%Z).

(** ** Sides *)

Inductive side := TopSide | BottomSide.
Definition side_name (s : side) : string := match s with TopSide => "top" | BottomSide => "bottom" end.
Definition copper_mask_silk (s : side) (c : string) : Prop :=
  match s with
  | TopSide => c = "top" \/ c = "topmask" \/ c = "topsilk"
  | BottomSide => c = "bottom" \/ c = "bottommask" \/ c = "bottomsilk"
  end%string.
(** The classes that belong to a side of the board. *)
Definition of_side (s : side) (c : string) : Prop :=
  copper_mask_silk s c \/ match s with TopSide => c = "toppaste" | BottomSide => c = "bottompaste" end%string.
(** A drill that reaches the side. *)
Definition drills_to (s : side) (x : layer) : Prop := l_class x = "drill"%string /\ In (side_name s) (l_sides x).
Definition side_layers (s : side) (b : list layer) : res (list layer) :=
  match s with TopSide => top_layers b | BottomSide => bottom_layers b end.
Definition copper (x : layer) : Prop := l_class x = "top"%string \/ l_class x = "bottom"%string \/ l_class x = "internal"%string.

(** ** Names *)

(** The letters, with their capitals *)
Definition capitals : text := T "ABCDEFGHIJKLMNOPQRSTUVWXYZ".
Definition small : text := T "abcdefghijklmnopqrstuvwxyz".
(** The same character, or the same letter in the other case *)
Definition same_letter (c d : ascii) : Prop := c = d \/ In (c, d) (combine capitals small) \/ In (d, c) (combine capitals small).
Definition same_but_case (s t : text) : Prop := Forall2 same_letter s t.
(** The characters of words *)
Definition word_char (c : ascii) : Prop := In c (capitals ++ small ++ T "0123456789_").

(** [x] reads like the hint name [w]: a "." of the hint is any character, letters ignore case. *)
Definition reads_like (w x : text) : Prop :=
  Forall2 (fun p c => p = "."%char \/ same_letter p c) w x.

(** [s] is made of runs of word characters with "." or "-" in between, and somewhere behind a
    separator (or at the start) it reads like [w], with at most one more run behind it. *)
Definition separator (c : ascii) : Prop := c = "."%char \/ c = "-"%char.
Definition has_token (w s : text) : Prop :=
  exists a x b, s = a ++ x ++ b /\ reads_like w x /\
    (a = [] \/ exists a' c, a = a' ++ [c] /\ separator c /\ Forall (fun c => word_char c \/ separator c) a') /\
    (b = [] \/ exists c b', b = c :: b' /\ separator c /\ Forall word_char b').

(** A directory part of a path: empty, or ending in "/". *)
Definition directory (d : text) : Prop := d = [] \/ exists d', d = d' ++ T "/".

(** [d] is the first number in [s]. *)
Definition first_number_is (s d : text) : Prop :=
  exists a b, s = a ++ d ++ b /\ d <> [] /\ all_digits d = true /\ Forall (fun c => is_digit c = false) a /\
    (b = [] \/ exists c b', b = c :: b' /\ is_digit c = false).

(** Going outwards from the middle of the board. *)
Definition outwards (s : side) (x y : layer) : Prop := match s with TopSide => above y x | BottomSide => above x y end.
