(** What reading an IPC-D-356 netlist is expected to do, stated without the model's helpers. *)
From Verif Require Export IpcModel.
Open Scope nat_scope.
Open Scope list_scope.

(** ** Files and continuation lines *)

(** A file with these lines, each ended by a newline. *)
Definition file_of (ls : list text) : text := List.concat (map (fun l => l ++ [nl]) ls).
(** The characters that end a line: line feed, vertical tab, form feed, carriage return and the separators of files, groups and records *)
Definition line_breaks : text := map ascii_of_nat [10; 11; 12; 13; 28; 29; 30].
Definition no_break (c : ascii) : Prop := existsb (Ascii.eqb c) line_breaks = false.
Definition one_line (l : text) : Prop := Forall no_break l.

(** A record broken over lines: the first part, and the parts behind "0" and two more characters. *)
Record split_record := mkSplit { sr_head : text; sr_more : list (ascii * ascii * text) }.
Definition split_lines (r : split_record) : list text :=
  sr_head r :: map (fun m => let '(a, b, t) := m in "0"%char :: a :: b :: t) (sr_more r).
Definition whole (r : split_record) : text := sr_head r ++ List.concat (map snd (sr_more r)).

Definition well_split (r : split_record) : Prop :=
  (exists c h, sr_head r = c :: h /\ c <> "0"%char) /\
  one_line (sr_head r) /\
  Forall (fun m => let '(a, b, t) := m in no_break a /\ no_break b /\ one_line t) (sr_more r).
(** No part ends in a blank. *)
Definition tight (r : split_record) : Prop :=
  Forall (fun m => forall t c, snd m = t ++ [c] -> is_space c = false) (sr_more r).

(** ** Nets *)
Definition has_net (l : list statement) (n : text) : Prop := exists r, In (ITest r) l /\ tr_net r = n.
(** [a] and [b] are declared adjacent. *)
Definition declared (l : list statement) (a b : text) : Prop :=
  exists n adj, In (IAdjacency n adj) l /\ (n = a /\ In b adj \/ n = b /\ In a adj).
Definition heads (l : list statement) (n : text) : Prop := exists adj, In (IAdjacency n adj) l.
(** An adjacency record of [n] has a later one that mentions [n]. *)
Definition clash (l : list statement) (n : text) : Prop :=
  exists l1 a l2 m b l3, l = l1 ++ IAdjacency n a :: l2 ++ IAdjacency m b :: l3 /\ (m = n \/ In n b).
Definition nets_claim : Prop := forall l, exists ns, nets l = Ok ns /\
  NoDup (map fst ns) /\ (forall n, In n (map fst ns) <-> has_net l n) /\
  (forall n adj, In (n, adj) ns -> forall b, In b adj <-> declared l n b).

(** ** The columns of a test record *)
Definition pad (n : nat) (t : text) : text := t ++ repeat " "%char (n - List.length t).
Definition trimmed (t : text) : Prop :=
  (forall c r, t = c :: r -> is_space c = false) /\ (forall c r, t = r ++ [c] -> is_space c = false).
(** A number in a fixed width: sign and digits. *)
Definition signed (n : nat) (z : Z) : text := (if (z <? 0)%Z then "-"%char else "+"%char) :: dig n (Z.abs z).

Record columns := mkCols {
  co_feature : ascii; co_net : text; co_id : text; co_sep : ascii; co_pin : text; co_middle : bool; co_hole : option Z;
  co_plated : bool; co_access : Z; co_x : Z; co_y : Z; co_w : Z; co_h : Z; co_rot : Z; co_mask : Z }.
Definition record_line (wid : nat) (c : columns) : text :=
  T "3" ++ [co_feature c] ++ T "7" ++ pad 14 (co_net c) ++ T "   " ++ pad wid (co_id c) ++ [co_sep c] ++ pad 4 (co_pin c) ++
  (if co_middle c then T "M" else T " ") ++
  match co_hole c with Some d => T "D" ++ dig 4 d | None => T "     " end ++
  (if co_plated c then T "P" else T "U") ++ T "A" ++ dig 2 (co_access c) ++
  T "X" ++ signed 6 (co_x c) ++ T "Y" ++ signed 6 (co_y c) ++
  T "X" ++ dig 4 (co_w c) ++ T "Y" ++ dig 4 (co_h c) ++ T "R" ++ dig 3 (co_rot c) ++ T " S" ++ dig 1 (co_mask c).

Definition units (se : ipc_settings) (z : Z) : Qc := (zq z / zq (if is_metric se then 1000 else 10000))%Qc.
Definition mask_of (n : Z) : option smask :=
  if (n =? 0)%Z then Some SmNone else if (n =? 1)%Z then Some SmPrimary
  else if (n =? 2)%Z then Some SmSecondary else if (n =? 3)%Z then Some SmBoth else None.
Definition access_of (n : Z) : access :=
  if (n =? 0)%Z then AccBoth else if (n =? 1)%Z then AccTop else if (n =? 8)%Z then AccBottom else AccLayer n.
Definition feature_of (c : ascii) (f : feature) : Prop :=
  (c = "1"%char /\ f = ThroughHole) \/ (c = "2"%char /\ f = Smt) \/ (c = "3"%char /\ f = ToolingFeature) \/
  (c = "4"%char /\ f = ToolingHole) \/ (c = "6"%char /\ f = NonPlatedToolingHole).

Definition fits_columns (wid : nat) (c : columns) : Prop :=
  List.length (co_net c) <= 14 /\ List.length (co_id c) <= wid /\ List.length (co_pin c) <= 4 /\
  trimmed (co_net c) /\ trimmed (co_id c) /\ trimmed (co_pin c) /\
  (match co_hole c with Some d => 0 <= d < 10000 | None => True end)%Z /\
  (0 <= co_access c <= 8 /\ -1000000 < co_x c < 1000000 /\ -1000000 < co_y c < 1000000 /\
   0 <= co_w c < 10000 /\ 0 <= co_h c < 10000 /\ 0 <= co_rot c < 1000 /\ 0 <= co_mask c < 10)%Z.

Definition the_record (se : ipc_settings) (f : feature) (c : columns) : test_record :=
  mkTR f (co_net c) (co_id c) (match co_pin c with [] => None | p => Some p end) (co_middle c)
    (option_map (units se) (co_hole c)) (Some (co_plated c)) (Some (access_of (co_access c)))
    (Some (units se (co_x c))) (Some (units se (co_y c))) (Some (units se (co_w c))) (Some (units se (co_h c)))
    (Some (co_rot c)) (mask_of (co_mask c)) None.

(** ** Parameters *)

(** The line "P  name value". *)
Definition parameter_line (n v : text) : text := T "P  " ++ n ++ T " " ++ v.
Definition a_word (t : text) : Prop := t <> [] /\ Forall (fun c => is_space c = false) t.
(** Words separated by single blanks. *)
Fixpoint spaced (ws : list text) : text :=
  match ws with [] => [] | [w] => w | w :: r => w ++ T " " ++ spaced r end.
Definition variable (n : text) : Prop := exists d, n = T "NNAME" ++ d /\ d <> [] /\ all_digits d = true.

(** ** Coordinates of outlines and conductors *)
Definition coord_text (c : option Z * option Z) : text :=
  (match fst c with Some x => T "X" ++ show_nat x | None => [] end) ++
  (match snd c with Some y => T "Y" ++ show_nat y | None => [] end).
Definition is_coord (c : option Z * option Z) : Prop :=
  (match fst c with Some x => 0 <= x | None => True end)%Z /\ (match snd c with Some y => 0 <= y | None => True end)%Z /\
  (fst c <> None \/ snd c <> None).
(** A missing number is that of the point before. *)
Fixpoint path (x y : Z) (l : list (option Z * option Z)) : list (Z * Z) :=
  match l with
  | [] => []
  | (a, b) :: r => let x' := match a with Some v => v | None => x end in
                   let y' := match b with Some v => v | None => y end in (x', y') :: path x' y' r
  end.
Definition in_units (se : ipc_settings) (p : Z * Z) : Qc * Qc := (units se (fst p), units se (snd p)).

(** ** Sides *)
Definition visible (l : rlayer) (a : access) : Prop :=
  match l with
  | RBoth => a = AccTop \/ a = AccBottom \/ a = AccBoth
  | RTop => a = AccTop \/ a = AccBoth
  | RBottom => a = AccBottom \/ a = AccBoth
  | ROther => False
  end.

(** Where the dash between component and pin stands: behind the component name (of [wid] columns),
    or nowhere, and then there is no other dash behind it (no negative coordinate). *)
Definition dash_found (wid : nat) (c : columns) : Prop :=
  6 <= wid /\
  (co_sep c = "-"%char /\ ~ In "-"%char (skipn 6 (pad wid (co_id c))) \/
   wid = 6 /\ co_sep c <> "-"%char /\ ~ In "-"%char (co_pin c) /\ (0 <= co_x c /\ 0 <= co_y c)%Z).

(** The line is a parameter line for [n]. *)
Definition defines (l n : text) : Prop :=
  exists c b r, l = "P"%char :: c :: b ++ n ++ r /\ Forall (fun c => is_space c = true) b /\
    (r = [] \/ exists d r', r = d :: r' /\ is_space d = true).
(** A line that starts a record. *)
Definition starts_record (l : text) : Prop := one_line l /\ exists c r, l = c :: r /\ c <> "0"%char.
Definition set_net (v : text) (r : test_record) : test_record :=
  mkTR (tr_feature r) v (tr_id r) (tr_pin r) (tr_middle r) (tr_hole r) (tr_plated r) (tr_access r) (tr_x r) (tr_y r)
       (tr_rect_x r) (tr_rect_y r) (tr_rotation r) (tr_soldermask r) (tr_info r).

(** An outline and a conductor record. *)
Definition outline_line (ty : text) (cs : list (option Z * option Z)) : text :=
  T "389" ++ pad 14 ty ++ T " " ++ spaced (map coord_text cs).
Fixpoint starred (l : list text) : text :=
  match l with [] => [] | [s] => s | s :: r => s ++ T "*" ++ starred r end.
Definition conductor_line (net : text) (layer : Z) (ap : option Z * option Z) (shapes : list (list (option Z * option Z))) : text :=
  T "378" ++ pad 14 net ++ T " L" ++ dig 2 layer ++ T " " ++ coord_text ap ++ T " " ++ starred (map (fun s => spaced (map coord_text s)) shapes).
