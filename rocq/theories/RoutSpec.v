(** What drill programs mean that also mill slots, independently of the parser.  Of the model only the data types are used. *)
From Verif Require Import PyBase QcLib NumModel NumSpec GerberText ExcellonModel ExcellonSpec HeadSpec.
Open Scope Qc_scope.

(** ** Instructions and the lines that express them *)
Inductive step :=
| Plain (x : instr)                     (* a tool, a notation, coordinates, repeats *)
| Move (x y : option Qc)                (* G00: go there above the board *)
| Mill (x y : option Qc)                (* G01: go there in a straight line *)
| Bend (ccw : bool) (x y : option Qc)   (* G02, G03: go there along an arc *)
| Lower                                 (* M15 *)
| Raise                                 (* M16, M17 *)
| Drilling                              (* G05: holes from now on *)
| Groove (xs ys xe ye : option Qc).     (* G85: a slot between two positions *)
(** Coordinates, at least one of them. *)
Inductive place (i d : nat) (z : zkind) : option Qc -> option Qc -> text -> Prop :=
| a_place x y tx ty : field_reads i d z "X" tx x -> field_reads i d z "Y" ty y -> (x <> None \/ y <> None) -> place i d z x y (tx ++ ty).
(** The coordinates of G00 and G01 may be on the next line. *)
Inductive expresses (i d : nat) (z : zkind) : step -> list text -> Prop :=
| ex_plain x t : says i d z x t -> expresses i d z (Plain x) [t]
| ex_move x y t : place i d z x y t -> expresses i d z (Move x y) [T "G00" ++ t]
| ex_move_next x y t : place i d z x y t -> expresses i d z (Move x y) [T "G00"; t]
| ex_mill x y t : place i d z x y t -> expresses i d z (Mill x y) [T "G01" ++ t]
| ex_mill_next x y t : place i d z x y t -> expresses i d z (Mill x y) [T "G01"; t]
| ex_bend (ccw : bool) x y t r v : place i d z x y t -> reads i d z r v -> expresses i d z (Bend ccw x y) [T (if ccw then "G03" else "G02") ++ t ++ T "A" ++ r]
| ex_lower : expresses i d z Lower [T "M15"]
| ex_raise : expresses i d z Raise [T "M16"]
| ex_raise_clamped : expresses i d z Raise [T "M17"]
| ex_drilling : expresses i d z Drilling [T "G05"]
| ex_groove xs ys xe ye s e : place i d z xs ys s -> place i d z xe ye e -> expresses i d z (Groove xs ys xe ye) [s ++ T "G85" ++ e].

(** ** What a program leaves in the board *)
(** Plain coordinates make a hole, or move, or mill. *)
Inductive activity := Holing | Moving | Milling.
Inductive mark := Hole (p : point) | Milled (a b : point) | Bent (ccw : bool) (a b : point) | Slotted (a b : point).
Definition reach (inc : bool) (p : point) (x y : option Qc) : point := if inc then shift p x y else put p x y.
Definition tool_now (cur : option Z) : Z := match cur with Some n => n | None => 1%Z end.
(** [cur], [inc] and [p] as for holes; [act] what coordinates do; [low] whether the tool is lowered. *)
Fixpoint marks (cur : option Z) (inc : bool) (p : point) (act : activity) (low : bool) (l : list step) : list (Z * mark) :=
  match l with
  | [] => []
  | Plain (Use n) :: l' => marks (if (n =? 0)%Z then cur else Some n) inc p act low l'
  | Plain Abs :: l' => marks cur false p act low l'
  | Plain Inc :: l' => marks cur true p act low l'
  | Plain (At x y) :: l' =>
      let q := reach inc p x y in
      match act, low with
      | Holing, _ => (tool_now cur, Hole q) :: marks (Some (tool_now cur)) inc q act low l'
      | Milling, true => (tool_now cur, Milled p q) :: marks (Some (tool_now cur)) inc q act low l'
      | _, _ => marks cur inc q act low l'
      end
  | Plain (Rep k dx dy) :: l' =>
      map (fun j => (tool_now cur, Hole (along p (val dx) (val dy) j))) (seq 1 k) ++ marks cur inc (along p (val dx) (val dy) k) act low l'
  | Move x y :: l' => marks cur inc (reach inc p x y) Moving low l'
  | Mill x y :: l' =>
      let q := reach inc p x y in
      if low then (tool_now cur, Milled p q) :: marks (Some (tool_now cur)) inc q Milling low l'
      else marks cur inc q Milling low l'
  | Bend ccw x y :: l' =>
      let q := reach inc p x y in
      if low then (tool_now cur, Bent ccw p q) :: marks (Some (tool_now cur)) inc q Milling low l'
      else marks cur inc q Milling low l'
  | Lower :: l' => marks cur inc p act true l'
  | Raise :: l' => marks cur inc p act false l'
  | Drilling :: l' => marks cur inc p Holing false l'
  | Groove xs ys xe ye :: l' =>
      let a := reach inc p xs ys in
      let b := reach inc a xe ye in
      (tool_now cur, Slotted a b) :: marks (Some (tool_now cur)) inc b act low l'
  end.

(** ** Sensible programs *)
(** Repeats and slots belong to drilling. *)
Fixpoint sensible (act : activity) (l : list step) : Prop :=
  match l with
  | [] => True
  | (Plain (Rep _ _ _) | Groove _ _ _ _) :: l' => act = Holing /\ sensible act l'
  | Move _ _ :: l' => sensible Moving l'
  | (Mill _ _ | Bend _ _ _) :: l' => sensible Milling l'
  | Drilling :: l' => sensible Holing l'
  | _ :: l' => sensible act l'
  end.
(** The first mark comes after a tool selection, or tool 1 exists and the first mark is not a repeat. *)
Fixpoint tooled (one : bool) (act : activity) (low : bool) (l : list step) : Prop :=
  match l with
  | [] => True
  | Plain (Use n) :: l' => n <> 0%Z \/ tooled one act low l'
  | Plain (At _ _) :: l' => match act, low with Holing, _ | Milling, true => one = true | _, _ => tooled one act low l' end
  | Plain (Rep _ _ _) :: _ => False
  | Plain _ :: l' => tooled one act low l'
  | Move _ _ :: l' => tooled one Moving low l'
  | (Mill _ _ | Bend _ _ _) :: l' => if low then one = true else tooled one Milling low l'
  | Lower :: l' => tooled one act true l'
  | Raise :: l' => tooled one act false l'
  | Drilling :: l' => tooled one Holing false l'
  | Groove _ _ _ _ :: _ => one = true
  end.
(** No arcs, and slots give both coordinates of their start, and as positions. *)
Fixpoint supported (inc : bool) (l : list step) : Prop :=
  match l with
  | [] => True
  | Plain Abs :: l' => supported false l'
  | Plain Inc :: l' => supported true l'
  | Bend _ _ _ :: _ => False
  | Groove xs ys _ _ :: l' => inc = false /\ xs <> None /\ ys <> None /\ supported inc l'
  | _ :: l' => supported inc l'
  end.

(** ** Observing hits *)
Definition mark_of (h : hit) : option mark :=
  match h with
  | Hit _ p => Some (Hole p)
  | Slot _ (Some ax, Some ay) (Some bx, Some by_) rout => Some (if rout then Milled (ax, ay) (bx, by_) else Slotted (ax, ay) (bx, by_))
  | _ => None
  end.
(** The number of the tool of a hit, its diameter, and what it leaves. *)
Definition mark_as (s : list tool) (w : Z -> option Qc) (h : hit) (x : Z * mark) : Prop :=
  exists t, tool_of s h = Some t /\ t_num t = fst x /\ near_opt (t_diam t) (w (fst x)) /\ mark_of h = Some (snd x).

(** ** Any text *)
Definition routed (h : hit) : Prop := match h with Slot _ _ _ true => True | _ => False end.
(** No line lowers the tool. *)
Definition never_lowers (data : text) : Prop := forall l, In l (split_on nl data) -> ~ exists r, strip l = T "M15" ++ r.
