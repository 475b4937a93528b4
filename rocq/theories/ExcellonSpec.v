(** What drill programs mean, independently of the parser.  Of the model only the data types are used. *)
From Verif Require Import PyBase QcLib NumModel NumSpec GerberText ExcellonModel.
Open Scope Qc_scope.

(** ** Numbers *)
Inductive sgn_ := NoSign | Plus | Minus.
Definition sign_text (s : sgn_) : text := match s with NoSign => [] | Plus => T "+" | Minus => T "-" end.
Definition signed (s : sgn_) (v : Qc) : Qc := match s with Minus => - v | _ => v end.
(** What a coordinate text means in a format of i integer and d decimal digits: with leading zeros
    kept the digits are aligned at the left, with trailing zeros kept at the right; a decimal point
    overrides the format. *)
Inductive reads (i d : nat) (z : zkind) : text -> Qc -> Prop :=
| reads_digits s ds : digit_string ds -> ds <> [] -> (List.length ds <= i + d)%nat ->
    reads i d z (sign_text s ++ ds)
          (signed s (match z with
                     | ZTrail => grid (int_of ds) d
                     | ZLead => grid (int_of ds * 10 ^ (Z.of_nat (i + d) - Z.of_nat (List.length ds))) d
                     end))
| reads_point s a b : digit_string a -> digit_string b -> a ++ b <> [] ->
    reads i d z (sign_text s ++ a ++ T "." ++ b) (signed s (grid (int_of (a ++ b)) (List.length b))).
(** An optional field: its letter and its number, or nothing. *)
Inductive field_reads (i d : nat) (z : zkind) (letter : string) : text -> option Qc -> Prop :=
| field_none : field_reads i d z letter [] None
| field_some t v : reads i d z t v -> field_reads i d z letter (T letter ++ t) (Some v).
(** A format the number reader accepts. *)
Definition readable (i d : nat) : Prop := (i <= 6)%nat /\ (d <= 7)%nat /\ (1 <= i + d)%nat.

(** ** Drill instructions and the lines that express them *)
Inductive instr :=
| Use (n : Z)                          (* select a tool *)
| Abs                                  (* coordinates are positions *)
| Inc                                  (* coordinates are increments *)
| At (x y : option Qc)                 (* a hole *)
| Rep (n : nat) (dx dy : option Qc).   (* n more holes *)
Inductive says (i d : nat) (z : zkind) : instr -> text -> Prop :=
| says_use n ds : digit_string ds -> ds <> [] -> (List.length ds <= 3)%nat -> int_of ds = n -> says i d z (Use n) (T "T" ++ ds)
| says_use_comp n ds cs : digit_string ds -> List.length ds = 2%nat -> int_of ds = n ->
    digit_string cs -> (2 <= List.length cs)%nat -> says i d z (Use n) (T "T" ++ ds ++ cs)
| says_abs : says i d z Abs (T "G90")
| says_off : says i d z Abs (T "ICI,OFF")
| says_inc : says i d z Inc (T "ICI,ON")
| says_at x y tx ty : field_reads i d z "X" tx x -> field_reads i d z "Y" ty y -> (x <> None \/ y <> None) ->
    says i d z (At x y) (tx ++ ty)
| says_rep n ds x y tx ty : digit_string ds -> ds <> [] -> int_of ds = Z.of_nat n ->
    field_reads i d z "X" tx x -> field_reads i d z "Y" ty y -> says i d z (Rep n x y) (T "R" ++ ds ++ tx ++ ty).

(** ** What a program drills *)
Definition shift (p : point) (x y : option Qc) : point :=
  (match x with Some v => fst p + v | None => fst p end, match y with Some v => snd p + v | None => snd p end).
Definition put (p : point) (x y : option Qc) : point :=
  (match x with Some v => v | None => fst p end, match y with Some v => v | None => snd p end).
Definition val (o : option Qc) : Qc := match o with Some v => v | None => 0 end.
(** p + k (dx, dy) *)
Definition along (p : point) (dx dy : Qc) (k : nat) : point := (fst p + Q2Qc (inject_Z (Z.of_nat k)) * dx, snd p + Q2Qc (inject_Z (Z.of_nat k)) * dy).
(** The holes of a program, each with its tool number: [cur] is the tool selected last (tool 0 selects
    nothing; without any selection tool 1 is used), [inc] whether coordinates are increments, [p] the
    current position. *)
Fixpoint holes (cur : option Z) (inc : bool) (p : point) (l : list instr) : list (Z * point) :=
  match l with
  | [] => []
  | Use n :: l' => holes (if (n =? 0)%Z then cur else Some n) inc p l'
  | Abs :: l' => holes cur false p l'
  | Inc :: l' => holes cur true p l'
  | At x y :: l' =>
      let n := match cur with Some n => n | None => 1%Z end in
      let p' := if inc then shift p x y else put p x y in
      (n, p') :: holes (Some n) inc p' l'
  | Rep k dx dy :: l' =>
      let n := match cur with Some n => n | None => 1%Z end in
      map (fun j => (n, along p (val dx) (val dy) j)) (seq 1 k) ++ holes cur inc (along p (val dx) (val dy) k) l'
  end.
(** Holes come after a tool selection, or tool 1 exists and the first hole is a plain one. *)
Fixpoint tool_known (one : bool) (l : list instr) : Prop :=
  match l with
  | [] => True
  | Use n :: l' => n <> 0%Z \/ tool_known one l'
  | At _ _ :: _ => one = true
  | Rep _ _ _ :: _ => False
  | _ :: l' => tool_known one l'
  end.

(** ** Headers *)
(** Unit lines *)
Definition unit_text (u : unit_) : text := match u with Inch => T "INCH" | Metric => T "METRIC" end.
Definition zeros_text (z : zkind) : text := match z with ZLead => T ",LZ" | ZTrail => T ",TZ" end.
Inductive format_text : option fmt -> text -> Prop :=
| format_no : format_text None []
| format_42 : format_text (Some (4, 2)%nat) (T ",0000.00")
| format_33 : format_text (Some (3, 3)%nat) (T ",000.000")
| format_24 : format_text (Some (2, 4)%nat) (T ",00.0000").
(** Tool definitions: a number and parameters, each a letter and a value. *)
Definition tool_letters : text := T "BCFHSZ".
Record definition := mkDef { d_num : Z; d_params : list (ascii * Qc) }.
Inductive params_say (i d : nat) (z : zkind) : list (ascii * Qc) -> text -> Prop :=
| params_none : params_say i d z [] []
| params_one c t v l r : In c tool_letters -> reads i d z t v -> params_say i d z l r -> params_say i d z ((c, v) :: l) (c :: t ++ r).
Inductive defines (i d : nat) (z : zkind) : definition -> text -> Prop :=
| defines_tool n ds ps t : digit_string ds -> ds <> [] -> int_of ds = n -> params_say i d z ps t ->
    defines i d z (mkDef n ps) (T "T" ++ ds ++ t).
(** The last value given for a letter. *)
Fixpoint param (c : ascii) (l : list (ascii * Qc)) : option Qc :=
  match l with
  | [] => None
  | (x, v) :: l' => match param c l' with Some w => Some w | None => if ceq x c then Some v else None end
  end.
(** The last definition of a tool. *)
Fixpoint defined (n : Z) (l : list definition) : option definition :=
  match l with
  | [] => None
  | x :: l' => match defined n l' with Some y => Some y | None => if (d_num x =? n)%Z then Some x else None end
  end.
(** The diameter of tool n: as defined; a tool used without definition has (16 + 8 n)/1000 inch. *)
Definition diameter (defs : list definition) (u : unit_) (n : Z) : option Qc :=
  match defined n defs with
  | Some x => param "C"%char (d_params x)
  | None => Some (let q := Q2Qc (inject_Z (16 + 8 * n)) / Q2Qc (inject_Z 1000) in
                  match u with Inch => q | Metric => q * Q2Qc (254 # 10) end)
  end.

(** ** Observing hits *)
Definition tool_of (s : list tool) (h : hit) : option tool :=
  match h with Hit (Some l) _ | Slot (Some l) _ _ _ => nth_error s l | _ => None end.
(** The tool number, the diameter and the position of a drill hit. *)
Definition hole_view (s : list tool) (h : hit) : option (Z * option Qc * point) :=
  match h, tool_of s h with
  | Hit _ p, Some t => Some (t_num t, t_diam t, p)
  | _, _ => None
  end.

(** ** Rewriting programs between absolute and incremental coordinates *)
(** Programs without mode changes: tool selections, holes and repeats. *)
Fixpoint plain (l : list instr) : Prop :=
  match l with [] => True | (Abs | Inc) :: _ => False | _ :: l' => plain l' end.
Fixpoint to_increments (p : point) (l : list instr) : list instr :=
  match l with
  | [] => []
  | At x y :: l' =>
      let p' := put p x y in
      At (option_map (fun v => v - fst p) x) (option_map (fun v => v - snd p) y) :: to_increments p' l'
  | Rep k dx dy :: l' => Rep k dx dy :: to_increments (along p (val dx) (val dy) k) l'
  | s :: l' => s :: to_increments p l'
  end.
Fixpoint to_positions (p : point) (l : list instr) : list instr :=
  match l with
  | [] => []
  | At x y :: l' =>
      let p' := shift p x y in
      At (option_map (fun v => fst p + v) x) (option_map (fun v => snd p + v) y) :: to_positions p' l'
  | Rep k dx dy :: l' => Rep k dx dy :: to_positions (along p (val dx) (val dy) k) l'
  | s :: l' => s :: to_positions p l'
  end.

(** ** Counting *)
Definition occurs (p s : text) : Prop := exists a b, s = a ++ p ++ b.
(** The number of entries made with the tool object at l, and with a tool of number n. *)
Definition made_with (l : tloc) (hs : list hit) : nat :=
  List.length (filter (fun h => match h with Hit (Some k) _ | Slot (Some k) _ _ _ => Nat.eqb k l | _ => false end) hs).
Definition made_with_number (s : list tool) (n : Z) (hs : list hit) : nat :=
  List.length (filter (fun h => match tool_of s h with Some t => (t_num t =? n)%Z | None => false end) hs).
Definition total (l : list nat) : nat := fold_right Nat.add 0%nat l.
(** Every hit refers to a tool of the table. *)
Definition current_tools (f : xfile) : Prop :=
  forall h, In h (xf_hits f) -> exists n l, In (n, l) (xf_tools f) /\
    match h with Hit o _ | Slot o _ _ _ => o = Some l end.

(** ** Whole files *)
(** Lines, each with a line end. *)
Definition file_text (eol : text) (lines : list text) : text := List.concat (map (fun l => l ++ eol) lines).
Definition line_end (t : text) : Prop := t = [nl] \/ t = [cr; nl].
Definition is_defined (n : Z) (defs : list definition) : bool := match defined n defs with Some _ => true | None => false end.
Definition start_inc (se : xset) : bool := match xs_notation se with Incremental => true | Absolute => false end.

(** ** Values on the grid of a format, in range *)
Definition grid_value (i d : nat) (v : Qc) : Prop := exists k, (Z.abs k < 10 ^ Z.of_nat (i + d))%Z /\ v = grid k d.
Definition grid_opt (i d : nat) (o : option Qc) : Prop := match o with None => True | Some v => grid_value i d v end.

(** ** Files that can be written *)
(** A value '%.10g' writes exactly with d decimals. *)
Definition exact_decimal (d : nat) (v : Qc) : Prop :=
  exists k, (Z.abs k < 10 ^ 10)%Z /\ v = grid k d /\ (k = 0%Z \/ (10 ^ Z.of_nat d <= 10 ^ 4 * Z.abs k)%Z).
Definition writable_tool (i d : nat) (t : tool) : Prop :=
  (1 <= t_num t < 1000)%Z /\ grid_opt i d (t_retract t) /\ grid_opt i d (t_feed t) /\ grid_opt i d (t_maxhit t) /\ grid_opt i d (t_depth t) /\
  match t_rpm t with None => True | Some r => r < Q2Qc 100000 /\ grid_value i d (r / Q2Qc 1000) end /\
  match t_diam t with None => True | Some v => exact_decimal d v end.
(** The header: M48, units, the tool definitions, an end mark; then the body, which starts with a tool selection. *)
Definition plain_header (f : xfile) (locs : list tloc) : Prop :=
  exists fo e rest, map fst (xf_stmts f) = EHeaderBegin :: EUnit (xs_units (xf_set f)) (xs_zeros (xf_set f)) fo :: map ETool locs ++ e :: rest /\
    (e = ERewind \/ e = EHeaderEnd) /\ match rest with [] => True | ESel _ _ :: _ => True | _ => False end.
Definition same_units (f : xfile) : Prop := forall s u, In (s, u) (xf_stmts f) -> u = xs_units (xf_set f).
Definition drill_hit (f : xfile) (i d : nat) (h : hit) : Prop :=
  exists n l x y, h = Hit (Some l) (x, y) /\ In (n, l) (xf_tools f) /\ grid_value i d x /\ grid_value i d y.
Definition by_tool (n : Z) (v : option (Z * option Qc * point)) : bool := match v with Some (k, _, _) => (k =? n)%Z | None => false end.

(** ** Units *)
Definition factor (u : unit_) (v : Qc) : Qc := match u with Metric => v * Q2Qc (254 # 10) | Inch => v / Q2Qc (254 # 10) end.
Definition rescaled_tool (u : unit_) (t t' : tool) : Prop :=
  t_diam t' = option_map (factor u) (t_diam t) /\ xs_units (t_set t') = u /\
  t_num t' = t_num t /\ t_retract t' = t_retract t /\ t_feed t' = t_feed t /\ t_maxhit t' = t_maxhit t /\ t_rpm t' = t_rpm t /\
  t_depth t' = t_depth t /\ t_plated t' = t_plated t /\ t_hits t' = t_hits t.
Definition rescaled_stmt (u : unit_) (s : estmt) : estmt :=
  let c := option_map (factor u) in
  match s with
  | ECoord m x y => ECoord m (c x) (c y)
  | ERepeat n x y => ERepeat n (c x) (c y)
  | EEnd x y => EEnd (c x) (c y)
  | ESlot a b x y => ESlot (c a) (c b) (c x) (c y)
  | _ => s
  end.
(** The tool objects a file mentions: its table and its definitions. *)
Definition listed (f : xfile) (l : tloc) : Prop := (exists n, In (n, l) (xf_tools f)) \/ (exists u, In (ETool l, u) (xf_stmts f)).
(** Everything is in the units of the file, and the hits use tools of the file. *)
Definition consistent (f : xfile) : Prop :=
  same_units f /\ (forall l t, listed f l -> nth_error (xf_store f) l = Some t -> xs_units (t_set t) = xs_units (xf_set f)) /\
  (forall h, In h (xf_hits f) -> exists l t, match h with Hit o _ | Slot o _ _ _ => o = Some l end /\ nth_error (xf_store f) l = Some t /\ listed f l).

(** ** Offset *)
Definition move (dx dy : Qc) (p : point) : point := (fst p + dx, snd p + dy).
Definition omove (dx dy : Qc) (p : opoint) : opoint := (option_map (fun v => v + dx) (fst p), option_map (fun v => v + dy) (snd p)).
Definition moved_hit (dx dy : Qc) (h : hit) : hit :=
  match h with Hit o p => Hit o (move dx dy p) | Slot o a b r => Slot o (omove dx dy a) (omove dx dy b) r end.
(** Every hit has a tool, every slot both coordinates of both ends. *)
Definition complete (p : opoint) : Prop := fst p <> None /\ snd p <> None.
Definition complete_hits (f : xfile) : Prop :=
  forall h, In h (xf_hits f) -> tool_of (xf_store f) h <> None /\ match h with Hit _ _ => True | Slot _ a b _ => complete a /\ complete b end.

(** ** Path length *)
(** The positions of the hits of tool number n, in order. *)
Definition stops (s : list tool) (n : Z) (hs : list hit) : list point :=
  flat_map (fun h => match h, tool_of s h with Hit _ p, Some t => if (t_num t =? n)%Z then [p] else [] | _, _ => [] end) hs.
(** The length of the polyline from p. *)
Fixpoint polyline {D} (add : D -> D -> D) (dist : point -> point -> D) (acc : D) (p : point) (l : list point) : D :=
  match l with [] => acc | q :: l' => polyline add dist (add acc (dist p q)) q l' end.

(** ** Tool update *)
Definition replaced (new old : option Qc) : option Qc := match new with Some v => Some v | None => old end.

(** ** Bounding box *)
(** The points removed by a hit: those within half a diameter of its position, or of the segment of a slot. *)
Definition within_radius (d : Qc) (c q : point) : Prop :=
  (fst q - fst c) * (fst q - fst c) + (snd q - snd c) * (snd q - snd c) <= (d * (1 / Q2Qc (2 # 1))) * (d * (1 / Q2Qc (2 # 1))).
Definition removes (s : list tool) (h : hit) (q : point) : Prop :=
  exists t d, tool_of s h = Some t /\ t_diam t = Some d /\
    match h with
    | Hit _ c => within_radius d c q
    | Slot _ (Some a, Some b) (Some x, Some y) _ => exists k, 0 <= k /\ k <= 1 /\ within_radius d (a + k * (x - a), b + k * (y - b)) q
    | Slot _ _ _ _ => False
    end.
(** Complete hits, made by tools with a diameter, within 1e11. *)
Definition drillable (f : xfile) : Prop :=
  complete_hits f /\
  (forall h t, In h (xf_hits f) -> tool_of (xf_store f) h = Some t -> exists d, t_diam t = Some d /\ 0 <= d) /\
  (forall h q, In h (xf_hits f) -> removes (xf_store f) h q -> - zq (10 ^ 11) <= fst q /\ fst q <= zq (10 ^ 11) /\ - zq (10 ^ 11) <= snd q /\ snd q <= zq (10 ^ 11)).
Definition inside (b : (Qc * Qc) * (Qc * Qc)) (q : point) : Prop :=
  fst (fst b) <= fst q /\ fst q <= snd (fst b) /\ fst (snd b) <= snd q /\ snd q <= snd (snd b).
(** Every side of the box has a point of P on it. *)
Definition touched (P : point -> Prop) (b : (Qc * Qc) * (Qc * Qc)) : Prop :=
  (exists q, P q /\ fst q = fst (fst b)) /\ (exists q, P q /\ fst q = snd (fst b)) /\
  (exists q, P q /\ snd q = fst (snd b)) /\ (exists q, P q /\ snd q = snd (snd b)).
