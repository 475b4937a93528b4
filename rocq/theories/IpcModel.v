(** IPC-D-356 netlists: gerber/ipc356.py.  Numbers are exact: [n * 0.0001] is the rational n/10000
    (the rounding of the two doubles is not modelled). *)
From Verif Require Export PyBase QcLib NumModel Regex GerberText DetectModel.
Open Scope nat_scope.
Open Scope list_scope.

(** [str.splitlines()] on ASCII. *)
Definition is_break (c : ascii) : bool :=
  let n := nat_of_ascii c in ((10 <=? n) && (n <=? 13) || (28 <=? n) && (n <=? 30))%nat.
Fixpoint splitlines (s : text) : list text :=
  match s with
  | [] => []
  | c :: s' =>
      if is_break c then
        match s' with
        | d :: s'' => if ceq c cr && ceq d nl then [] :: splitlines s'' else [] :: splitlines s'
        | [] => [[]]
        end
      else match splitlines s' with w :: ws => (c :: w) :: ws | [] => [[c]] end
  end.

(** [s[a:b]] for [0 <= a], [0 <= b]. *)
Definition slice (a b : nat) (s : text) : text := firstn (b - a) (skipn a s).
(** [s[i]]. *)
Definition char_at (i : nat) (s : text) : res ascii :=
  match nth_error s i with Some c => Ok c | None => Err IndexError end.
(** int(str), with surrounding white space. *)
Definition int_of (s : text) : res Z := py_int (strip s).
(** [l[i]] with python's negative indices. *)
Definition list_at {A} (l : list A) (i : Z) : res A :=
  let n := Z.of_nat (List.length l) in
  let j := if (i <? 0)%Z then (n + i)%Z else i in
  if (j <? 0)%Z then Err IndexError
  else match nth_error l (Z.to_nat j) with Some a => Ok a | None => Err IndexError end.

(** What a line is read under (FileSettings.units, angle_units). *)
Record ipc_settings := mkIS { is_metric : bool; is_radians : bool }.

(** dist * 0.0001 or dist * 0.001 (ipc356.py:307-308, 323-324, ...). *)
Definition scale (se : ipc_settings) (n : Z) : Qc :=
  (zq n / (if is_metric se then zq 1000 else zq 10000))%Qc.

(** ipc356.py:31-35 _SM_FIELD. *)
Inductive smask := SmNone | SmPrimary | SmSecondary | SmBoth.
Definition sm_field (s : text) : option smask :=
  if teq s (T "0") then Some SmNone else if teq s (T "1") then Some SmPrimary
  else if teq s (T "2") then Some SmSecondary else if teq s (T "3") then Some SmBoth else None.

Inductive feature := ThroughHole | Smt | ToolingFeature | ToolingHole | NonPlatedToolingHole.
(** ipc356.py:281-283. *)
Definition feature_types (c : ascii) : res feature :=
  if ceq c "1"%char then Ok ThroughHole else if ceq c "2"%char then Ok Smt
  else if ceq c "3"%char then Ok ToolingFeature else if ceq c "4"%char then Ok ToolingHole
  else if ceq c "6"%char then Ok NonPlatedToolingHole else Err KeyError.

Inductive access := AccBoth | AccTop | AccLayer (n : Z) | AccBottom.
(** ipc356.py:284-285. *)
Definition access_list : list access :=
  [AccBoth; AccTop; AccLayer 2; AccLayer 3; AccLayer 4; AccLayer 5; AccLayer 6; AccLayer 7; AccBottom].

(** ipc356.py:276-362 IPC356_TestRecord: the attributes; [None] where the attribute is not set or,
    for [tr_pin], [tr_soldermask], where it is set to None. *)
Record test_record := mkTR {
  tr_feature : feature; tr_net : text; tr_id : text; tr_pin : option text; tr_middle : bool;
  tr_hole : option Qc; tr_plated : option bool; tr_access : option access;
  tr_x : option Qc; tr_y : option Qc; tr_rect_x : option Qc; tr_rect_y : option Qc;
  tr_rotation : option Z; tr_soldermask : option smask; tr_info : option text }.

(** The idiom [end = len(line) - 1 if len(line) < lim else b]. *)
Definition field (line : text) (a b lim : nat) : text :=
  slice a (if (List.length line <? lim)%nat then List.length line - 1 else b) line.

(** [line.find('-')]. *)
Fixpoint find_dash (s : text) : option nat :=
  match s with
  | [] => None
  | c :: s' => if ceq c "-"%char then Some 0 else option_map S (find_dash s')
  end.

(** ipc356.py:294-297: how far the columns behind the component name are moved. *)
Definition dash_offset (line : text) : nat :=
  match nth_error line 26 with
  | Some c => if ceq c "-"%char then 0 else match find_dash (skipn 26 line) with Some k => k | None => 0 end
  | None => 0
  end.

(** An attribute set only when the line reaches column [lim]. *)
Definition reaches {A} (line : text) (lim : nat) (v : res (option A)) : res (option A) :=
  if (lim <=? List.length line)%nat then v else Ok None.

(** ipc356.py:277-362 IPC356_TestRecord.from_line. *)
Definition record_from_line (line : text) (se : ipc_settings) : res test_record :=
  let line := strip line in                                                       (* 287 *)
  do c0 <- char_at 0 line;
  if negb (ceq c0 "3"%char) then Err ValueError else
  do c1 <- char_at 1 line; do ft <- feature_types c1;                             (* 290 *)
  let net := strip (field line 3 17 18) in                                        (* 292-293 *)
  let o := dash_offset line in
  let id := strip (field line 20 (26 + o) (27 + o)) in                            (* 298-299 *)
  let pin := strip (field line (27 + o) (31 + o) (32 + o)) in                     (* 301-303 *)
  do cm <- char_at (31 + o) line;                                                 (* 305 *)
  do cd <- char_at (32 + o) line;
  do hole <- (if ceq cd "D"%char then                                             (* 306-310 *)
                do n <- int_of (field line (33 + o) (37 + o) (38 + o)); Ok (Some (scale se n))
              else Ok None);
  do plated <- reaches line (38 + o) (do c <- char_at (37 + o) line; Ok (Some (ceq c "P"%char)));  (* 311-312 *)
  do acc <- reaches line (40 + o)                                                 (* 314-316 *)
    (do n <- int_of (field line (39 + o) (41 + o) (42 + o)); do a <- list_at access_list n; Ok (Some a));
  do x <- reaches line (43 + o)                                                   (* 318-322 *)
    (do n <- int_of (field line (42 + o) (49 + o) (50 + o)); Ok (Some (scale se n)));
  do y <- reaches line (51 + o)                                                   (* 324-328 *)
    (do n <- int_of (field line (50 + o) (57 + o) (58 + o)); Ok (Some (scale se n)));
  do rx <- reaches line (59 + o)                                                  (* 330-335 *)
    (match strip (field line (58 + o) (62 + o) (63 + o)) with
     | [] => Ok None | d => do n <- int_of d; Ok (Some (scale se n)) end);
  do ry <- reaches line (64 + o)                                                  (* 337-342 *)
    (match strip (field line (63 + o) (67 + o) (68 + o)) with
     | [] => Ok None | d => do n <- int_of d; Ok (Some (scale se n)) end);
  do rot <- reaches line (69 + o)                                                 (* 344-349; math.degrees of a string *)
    (match strip (field line (68 + o) (71 + o) (72 + o)) with
     | [] => Ok None | d => if is_radians se then Err TypeError else do n <- int_of d; Ok (Some n) end);
  do sm <- reaches line (74 + o) (Ok (sm_field (strip (slice (73 + o) (74 + o) line))));  (* 351-354 *)
  do info <- reaches line (76 + o) (Ok (Some (field line (75 + o) (79 + o) (80 + o))));   (* 356-358 *)
  Ok (mkTR ft net id (match pin with [] => None | _ => Some pin end) (ceq cm "M"%char) hole plated acc x y rx ry rot sm info).

(** ipc356.py:28 _COORD. *)
Definition digit_or_space (c : ascii) : bool := is_digit c || is_space c.
Definition coord_re : re :=
  Seq (Opt (chr "X"%char)) (Seq (Opt (Grp (T "x") (Star digit_or_space)))
  (Seq (Opt (chr "Y"%char)) (Opt (Grp (T "y") (Star digit_or_space))))).

(** _COORD.match(coord).groupdict(): the expression matches everything. *)
Definition coord_groups (s : text) : text * text :=
  match re_match coord_re s with
  | Some (g, _) => (dflt (group "x" g), dflt (group "y" g))
  | None => ([], [])  (* unreachable *)
  end.

(** int(coord_dict['x']) if coord_dict['x'] is not '' else x  (the empty string is one object). *)
Definition coord_value (t : text) (old : Z) : res Z := match t with [] => Ok old | _ => int_of t end.

(** ipc356.py:384-389 and 424-428: positions along a list of coordinates. *)
Fixpoint points (se : ipc_settings) (x y : Z) (l : list text) : res (list (Qc * Qc)) :=
  match l with
  | [] => Ok []
  | c :: l' =>
      let (tx, ty) := coord_groups c in
      do x' <- coord_value tx x; do y' <- coord_value ty y;
      do r <- points se x' y' l';
      Ok ((scale se x', scale se y') :: r)
  end.

Record outline := mkOutline { ol_type : text; ol_points : list (Qc * Qc) }.
(** ipc356.py:374-388 IPC356_Outline.from_line. *)
Definition outline_from_line (line : text) (se : ipc_settings) : res outline :=
  do ps <- points se 0 0 (skipn 1 (words (strip line)));
  Ok (mkOutline (strip (slice 3 17 line)) ps).

Record conductor := mkConductor {
  cd_net : text; cd_layer : Z; cd_aperture : option Qc * option Qc; cd_shapes : list (list (Qc * Qc)) }.
Definition ap_value (se : ipc_settings) (t : text) : res (option Qc) :=
  match t with [] => Ok None | _ => do n <- int_of t; Ok (Some (scale se n)) end.
(** ' '.join(l). *)
Fixpoint unwords (l : list text) : text :=
  match l with [] => [] | [w] => w | w :: r => w ++ " "%char :: unwords r end.
(** ipc356.py:399-435 IPC356_Conductor.from_line. *)
Definition conductor_from_line (line : text) (se : ipc_settings) : res conductor :=
  do layer <- int_of (slice 19 21 line);                                          (* 407 *)
  match words (skipn 22 line) with
  | [] => Err IndexError                                                          (* 410 *)
  | a :: r =>
      let (tx, ty) := coord_groups a in
      do x <- ap_value se tx; do y <- ap_value se ty;
      do shapes <- mapM (fun s => points se 0 0 (words s)) (split_on "*"%char (unwords r));  (* 419-431 *)
      Ok (mkConductor (strip (slice 3 17 line)) layer (x, y) shapes)
  end.

(** ipc356.py:448-454 IPC356_Adjacency.from_line. *)
Definition adjacency_from_line (line : text) : res (text * list text) :=
  match words (strip (skipn 3 line)) with n :: r => Ok (n, r) | [] => Err IndexError end.

(** ipc356.py:258-265 IPC356_Parameter.from_line. *)
Definition parameter_from_line (line : text) : res (text * text) :=
  match words (skipn 2 line) with p :: r => Ok (p, unwords r) | [] => Err IndexError end.

Inductive statement :=
| IComment (t : text) | IParameter (p v : text) | IEnd
| ITest (r : test_record) | IConductor (c : conductor) | IAdjacency (net : text) (adj : list text) | IOutline (o : outline).

(** ipc356.py:157-162 IPCNetlistParser: units, statements, nnames (last assignment first). *)
Record parser := mkParser { ip_set : ipc_settings; ip_stmts : list statement; ip_names : list (text * text) }.
Definition init_parser : parser := mkParser (mkIS false false) [] [].

(** ipc356.py:25 _NNAME: [^NNAME\d+$]. ([$] before a final newline cannot matter: words have none.) *)
Definition is_nname (s : text) : bool :=
  starts_with (T "NNAME") s && all_digits (skipn 5 s) && (1 <=? List.length (skipn 5 s))%nat.

Fixpoint lookup (n : text) (l : list (text * text)) : option text :=
  match l with (m, v) :: r => if teq m n then Some v else lookup n r | [] => None end.

Definition add (s : statement) (p : parser) : parser := mkParser (ip_set p) (ip_stmts p ++ [s]) (ip_names p).

(** ipc356.py:200-208: what P UNITS does. *)
Definition set_units (v : text) (se : ipc_settings) : ipc_settings :=
  if teq v (T "CUST") || teq v (T "CUST 0") then mkIS false false
  else if teq v (T "CUST 1") then mkIS true false
  else if teq v (T "CUST 2") then mkIS false true
  else se.

Definition rename (names : list (text * text)) (r : test_record) : test_record :=
  let net := if is_nname (tr_net r) then match lookup (tr_net r) names with Some v => v | None => tr_net r end else tr_net r in
  mkTR (tr_feature r) net (tr_id r) (tr_pin r) (tr_middle r) (tr_hole r) (tr_plated r) (tr_access r) (tr_x r) (tr_y r)
       (tr_rect_x r) (tr_rect_y r) (tr_rotation r) (tr_soldermask r) (tr_info r).

(** ipc356.py:186-238 _parse_line. *)
Definition parse_line (line : text) (p : parser) : res parser :=
  match line with
  | [] => Ok p
  | c :: _ =>
      let head := firstn 3 line in
      if ceq c "C"%char then Ok (add (IComment (strip (skipn 2 line))) p)
      else if ceq c "P"%char then
        do pv <- parameter_from_line line;
        let (n, v) := pv in
        let se := if teq n (T "UNITS") then set_units v (ip_set p) else ip_set p in
        Ok (mkParser se (ip_stmts p ++ [IParameter n v]) (if is_nname n then (n, v) :: ip_names p else ip_names p))
      else if ceq c "9"%char then Ok (add IEnd p)
      else if teq head (T "317") || teq head (T "327") || teq head (T "367") then
        do r <- record_from_line line (ip_set p); Ok (add (ITest (rename (ip_names p) r)) p)
      else if teq head (T "378") then do c <- conductor_from_line line (ip_set p); Ok (add (IConductor c) p)
      else if teq head (T "379") then do a <- adjacency_from_line line; Ok (add (IAdjacency (fst a) (snd a)) p)
      else if teq head (T "389") then do o <- outline_from_line line (ip_set p); Ok (add (IOutline o) p)
      else Ok p
  end.

Definition is_crlf (c : ascii) : bool := ceq c cr || ceq c nl.

(** ipc356.py:172-182: the loop over the lines, [old] being oldline. *)
Fixpoint parse_lines (old : text) (ls : list text) (p : parser) : res parser :=
  match ls with
  | [] => parse_line old p
  | line :: ls' =>
      match old with
      | [] => parse_lines line ls' p
      | _ => match line with
             | c :: _ => if ceq c "0"%char
                         then parse_lines (rstrip_p is_crlf old ++ rstrip_p is_space (skipn 3 line)) ls' p
                         else do p' <- parse_line old p; parse_lines line ls' p'
             | [] => do p' <- parse_line old p; parse_lines line ls' p'
             end
      end
  end.

(** ipc356.py:76-83, 93-102: the netlist; its primitives need x, y and access of every record. *)
Record netlist := mkNetlist { n_set : ipc_settings; n_stmts : list statement; n_prims : list ((Qc * Qc) * text * access) }.
Definition test_records (l : list statement) : list test_record :=
  flat_map (fun s => match s with ITest r => [r] | _ => [] end) l.
Definition prim_of (r : test_record) : res ((Qc * Qc) * text * access) :=
  match tr_x r, tr_y r, tr_access r with
  | Some x, Some y, Some a => Ok ((x, y), tr_net r, a)
  | _, _, _ => Err AttributeError
  end.
Definition netlist_of (p : parser) : res netlist :=
  do prims <- mapM prim_of (test_records (ip_stmts p)); Ok (mkNetlist (ip_set p) (ip_stmts p) prims).

(** ipc356.py:170-184 parse_raw. *)
Definition parse_raw (data : text) : res netlist :=
  do p <- parse_lines [] (splitlines data) init_parser; netlist_of p.

(** list(set(l)): each element once (the order python picks is unspecified). *)
Definition mem (x : text) (l : list text) : bool := existsb (teq x) l.
Fixpoint to_set (l : list text) : list text :=
  match l with [] => [] | x :: r => if mem x r then to_set r else x :: to_set r end.

Definition adjacency_records (l : list statement) : list (text * list text) :=
  flat_map (fun s => match s with IAdjacency n a => [(n, a)] | _ => [] end) l.

(** ipc356.py:111-117: the inner loop of nets; the variable is a set, or None once
    [adjacent_nets = adjacent_nets.update(...)] (114) has run: update returns None. *)
Fixpoint adjacent (net : text) (recs : list (text * list text)) (s : option (list text)) : res (option (list text)) :=
  match recs with
  | [] => Ok s
  | (n, a) :: r =>
      if teq n net then match s with Some _ => adjacent net r None | None => Err AttributeError end
      else if mem net a then match s with Some l => adjacent net r (Some (l ++ [n])) | None => Err AttributeError end
      else adjacent net r s
  end.

(** ipc356.py:107-119 nets; IPC356_Net (477-482) makes None the empty set. *)
Definition nets (l : list statement) : res (list (text * list text)) :=
  mapM (fun net => do s <- adjacent net (adjacency_records l) (Some []);
                   Ok (net, match s with Some a => to_set a | None => [] end))
       (to_set (map tr_net (test_records l))).

(** ipc356.py:121-128 components, vias. *)
Definition components (l : list statement) : list text :=
  to_set (filter (fun i => negb (teq i (T "VIA"))) (map tr_id (test_records l))).
Definition vias (l : list statement) : list text := filter (fun i => teq i (T "VIA")) (map tr_id (test_records l)).

(** ipc356.py:140-149 render: the primitives handed to the context. *)
Inductive rlayer := RBoth | RTop | RBottom | ROther.
Definition shown (l : rlayer) (a : access) : bool :=
  match l, a with
  | RBoth, (AccTop | AccBottom | AccBoth) => true
  | RTop, (AccTop | AccBoth) => true
  | RBottom, (AccBottom | AccBoth) => true
  | _, _ => false
  end.
Definition render (l : rlayer) (n : netlist) : list ((Qc * Qc) * text * access) :=
  filter (fun p => shown l (snd p)) (n_prims n).
