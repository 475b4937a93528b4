(** Model of the writing side of gerber/excellon_statements.py and of ExcellonFile
    (gerber/excellon.py:85-369). *)
From Verif Require Import PyBase QcLib NumModel FmtModel Regex GerberText ExcellonModel.
Open Scope Qc_scope.

(** ** Writing statements *)
(** '%02d' % n *)
Definition show2 (n : Z) : text :=
  if (0 <=? n)%Z && (n <? 10)%Z then "0"%char :: show_nat n else show_int n.
(** letter + write_gerber_value(v), nothing for None *)
Definition field (se : xset) (c : ascii) (v : option Qc) : res text :=
  match v with None => Ok [] | Some q => do t <- write_value se q; Ok (c :: t) end.
(** excellon_statements.py:215-236 ExcellonTool.to_excellon *)
Definition write_tool (se : xset) (t : tool) : res text :=
  do b <- field se "B" (t_retract t);
  do f <- field se "F" (t_feed t);
  do h <- field se "H" (t_maxhit t);
  do s <- match t_rpm t with
          | None => Ok []
          | Some r => if qclt r (zq 100000) then do v <- write_value se (r / zq 1000); Ok ("S"%char :: v)
                      else Ok ("S"%char :: fmt_g 6 (r / zq 1000))
          end;
  do z <- field se "Z" (t_depth t);
  Ok ("T"%char :: show2 (t_num t) ++ b ++ f ++ h ++ s ++
      (match t_diam t with None => [] | Some d => "C"%char :: decimal_string d (snd (xs_format se)) true end) ++ z).
(** write_gerber_value with its default arguments (utils.py:97) *)
Definition write_default (c : ascii) (v : option Qc) : res text :=
  match v with None => Ok [] | Some q => do t <- write_gerber_value q (2, 5)%nat Trailing; Ok (c :: t) end.
(** != 0.0 and not None (excellon_statements.py:474-479) *)
Definition nonzero (v : option Qc) : option Qc := match v with Some q => if qceq q 0 then None else v | None => None end.
Definition mode_text (m : option cmode) : text := match m with Some Rout => T "G00" | Some Linear => T "G01" | None => [] end.
(** to_excellon of each class: excellon_statements.py:215, 309, 336, 362, 403, 472, 515, 524-597, 626,
    680, 707, 725, 743, 784, 796-824, 838, 904.  The statement carries its units; UnitStmt and
    MeasuringModeStmt write those (parse_raw has set them, excellon.py:436-437). *)
Definition write_stmt (se : xset) (h : list tool) (su : estmt * unit_) : res text :=
  match fst su with
  | ETool l => match tget h l with Some t => write_tool se t | None => Err AttributeError end
  | ESel n c => Ok ("T"%char :: show2 n ++ match c with Some k => show2 k | None => [] end)
  | ENext _ _ => Ok (T "M00")
  | EFeed n => Ok ("F"%char :: show2 n)
  | ECoord m x y => do a <- field se "X" x; do b <- field se "Y" y; Ok (mode_text m ++ a ++ b)
  | ERepeat n x y => do a <- field se "X" (nonzero x); do b <- field se "Y" (nonzero y); Ok ("R"%char :: show_int n ++ a ++ b)
  | EComment c => Ok (";"%char :: c)
  | EHeaderBegin => Ok (T "M48")
  | EHeaderEnd => Ok (T "M95")
  | ERewind => Ok (T "%")
  | EZRout => Ok (T "M15")
  | ERetractC => Ok (T "M16")
  | ERetract => Ok (T "M17")
  | ECutOff => Ok (T "G40")
  | ECutLeft => Ok (T "G41")
  | ECutRight => Ok (T "G42")
  | EEnd x y => do a <- write_default "X" x; do b <- write_default "Y" y; Ok (T "M30" ++ a ++ b)
  | EUnit _ z _ => Ok ((match snd su with Inch => T "INCH" | Metric => T "METRIC" end) ++
                       (match z with ZLead => T ",LZ" | ZTrail => T ",TZ" end))
  | EInc on => Ok (if on then T "ICI,ON" else T "ICI,OFF")
  | EVer n => Ok (T "VER," ++ show_int n)
  | EFmat n => Ok (T "FMAT," ++ show_int n)
  | EMeasure _ => Ok (match snd su with Inch => T "M72" | Metric => T "M71" end)
  | ERoute => Ok (T "G00")
  | EDrill => Ok (T "G05")
  | EAbs => Ok (T "G90")
  | EUnknown t => Ok t
  | ESlot xs ys xe ye =>
      do a <- field se "X" xs; do b <- field se "Y" ys; do c <- field se "X" xe; do d <- field se "Y" ye;
      Ok (a ++ b ++ T "G85" ++ c ++ d)
  end.

(** ** The file *)
(** The tool object of a hit (None, or dangling, is an AttributeError in python). *)
Definition hit_tool (h : hit) : option tloc := match h with Hit t _ => t | Slot t _ _ _ => t end.
Definition tool_at (s : list tool) (o : option tloc) : res tool :=
  match o with
  | Some l => match tget s l with Some t => Ok t | None => Err AttributeError end
  | None => Err AttributeError
  end.
(** excellon.py:262-280 write, as the list of lines. *)
Definition is_sel (s : estmt * unit_) : bool := match fst s with ESel _ _ => true | _ => false end.
Fixpoint before_sel (l : list (estmt * unit_)) : list (estmt * unit_) :=
  match l with [] => [] | s :: l' => if is_sel s then [] else s :: before_sel l' end.
(** 272-279: one tool.  Slots have no attribute position. *)
Fixpoint write_hits (se : xset) (s : list tool) (n : Z) (hits : list hit) : res (list text) :=
  match hits with
  | [] => Ok []
  | h :: hits' =>
      do t <- tool_at s (hit_tool h);
      if (t_num t =? n)%Z then
        match h with
        | Slot _ _ _ _ => Err AttributeError
        | Hit _ p =>
            do l <- write_stmt se s (ECoord None (Some (fst p)) (Some (snd p)), Inch);
            do r <- write_hits se s n hits'; Ok (l :: r)
        end
      else write_hits se s n hits'
  end.
Fixpoint write_jobs (se : xset) (s : list tool) (hits : list hit) (tools : list (Z * tloc)) : res (list text) :=
  match tools with
  | [] => Ok []
  | (_, l) :: tools' =>
      do t <- tool_at s (Some l);
      do a <- write_stmt se s (ESel (t_num t) None, Inch);
      do b <- write_hits se s (t_num t) hits;
      do r <- write_jobs se s hits tools'; Ok (a :: b ++ r)
  end.
Definition write_lines (f : xfile) : res (list text) :=
  do h <- mapM (write_stmt (xf_set f) (xf_store f)) (before_sel (xf_stmts f));
  do b <- write_jobs (xf_set f) (xf_store f) (xf_hits f) (xf_tools f);
  Ok (h ++ b ++ [T "M30"]).
(** The text written: every line followed by a newline. *)
Definition join_lines (l : list text) : text := List.concat (map (fun t => t ++ [nl]) l).
Definition write_file (f : xfile) : res text := do l <- write_lines f; Ok (join_lines l).

(** ** Units *)
Definition conv (u : unit_) (q : Qc) : Qc := match u with Inch => inch q | Metric => metric q end.
Definition with_unit (u : unit_) (se : xset) : xset := mkXset u (xs_format se) (xs_zeros se) (xs_notation se).
Definition same_unit (a b : unit_) : bool := match a, b with Inch, Inch | Metric, Metric => true | _, _ => false end.
(** excellon_statements.py:238-248: only the diameter, once. *)
Definition conv_tool (u : unit_) (t : tool) : tool :=
  if same_unit (xs_units (t_set t)) u then t
  else mkTool (t_num t) (t_retract t) (t_feed t) (t_maxhit t) (t_rpm t) (option_map (conv u) (t_diam t)) (t_depth t)
              (t_plated t) (t_hits t) (with_unit u (t_set t)).
(** to_inch / to_metric of the other statements: excellon_statements.py:61-65, 414-431, 481-497, 633-650,
    688-692, 784-788, 924-948.  A statement that is a tool converts the tool (238-248). *)
Definition conv_stmt (u : unit_) (su : estmt * unit_) : estmt * unit_ :=
  let c := if same_unit (snd su) u then fun o => o else option_map (conv u) in
  (match fst su with
   | ECoord m x y => ECoord m (c x) (c y)
   | ERepeat n x y => ERepeat n (c x) (c y)
   | EEnd x y => EEnd (c x) (c y)
   | ESlot a b x y => ESlot (c a) (c b) (c x) (c y)
   | s => s
   end, match fst su with ETool _ => snd su | _ => u end).
Definition stmt_tools (l : list (estmt * unit_)) : list tloc :=
  flat_map (fun su => match fst su with ETool t => [t] | _ => [] end) l.
Definition conv_tools (u : unit_) (s : list tool) (ls : list tloc) : list tool :=
  fold_left (fun s l => tset s l (conv_tool u)) ls s.
(** excellon.py:104-112, 144-154: DrillHit and DrillSlot to_metric, guarded by the units of the tool;
    a missing coordinate is a TypeError. *)
Definition conv_point (u : unit_) (p : opoint) : res opoint :=
  match p with (Some x, Some y) => Ok (Some (conv u x), Some (conv u y)) | _ => Err TypeError end.
Definition conv_hit (u : unit_) (s : list tool) (h : hit) : res (list tool * hit) :=
  do t <- tool_at s (hit_tool h);
  if same_unit (xs_units (t_set t)) u then Ok (s, h)
  else
    let s' := match hit_tool h with Some l => tset s l (conv_tool u) | None => s end in
    match h with
    | Hit o p => Ok (s', Hit o (conv u (fst p), conv u (snd p)))
    | Slot o a b r => do a' <- conv_point u a; do b' <- conv_point u b; Ok (s', Slot o a' b' r)
    end.
Fixpoint conv_hits (u : unit_) (s : list tool) (hs : list hit) : res (list tool * list hit) :=
  match hs with
  | [] => Ok (s, [])
  | h :: hs' => do r <- conv_hit u s h; do q <- conv_hits u (fst r) hs'; Ok (fst q, snd r :: snd q)
  end.
(** excellon.py:282-311.  to_inch leaves the hits alone. *)
Definition convert (u : unit_) (f : xfile) : res xfile :=
  if same_unit (xs_units (xf_set f)) u then Ok f
  else
    let s := conv_tools u (xf_store f) (stmt_tools (xf_stmts f)) in
    let s := conv_tools u s (map snd (xf_tools f)) in
    do r <- match u with Inch => Ok (s, xf_hits f) | Metric => conv_hits u s (xf_hits f) end;
    Ok (mkXfile (with_unit u (xf_set f)) (map (conv_stmt u) (xf_stmts f)) (xf_tools f) (snd r) (fst r)).

(** ** Offset *)
(** excellon_statements.py:67, 433-437, 645-650, 950-958; a repeat statement has no offset *)
Definition move_stmt (dx dy : Qc) (su : estmt * unit_) : estmt * unit_ :=
  let ox := option_map (fun v => v + dx) in
  let oy := option_map (fun v => v + dy) in
  (match fst su with
   | ECoord m x y => ECoord m (ox x) (oy y)
   | EEnd x y => EEnd (ox x) (oy y)
   | ESlot a b x y => ESlot (ox a) (oy b) (ox x) (oy y)
   | s => s
   end, snd su).
Definition move_point (dx dy : Qc) (p : opoint) : res opoint :=
  match p with (Some x, Some y) => Ok (Some (x + dx), Some (y + dy)) | _ => Err TypeError end.
(** excellon.py:121-123, 164-168.  The primitives (excellon.py:316-317) are fresh objects; building
    them needs the tool of every hit. *)
Definition move_hit (s : list tool) (dx dy : Qc) (h : hit) : res hit :=
  do _ <- tool_at s (hit_tool h);
  match h with
  | Hit o p => Ok (Hit o (fst p + dx, snd p + dy))
  | Slot o a b r => do a' <- move_point dx dy a; do b' <- move_point dx dy b; Ok (Slot o a' b' r)
  end.
(** excellon.py:313-319 *)
Definition offset (dx dy : Qc) (f : xfile) : res xfile :=
  do hs <- mapM (move_hit (xf_store f) dx dy) (xf_hits f);
  Ok (mkXfile (xf_set f) (map (move_stmt dx dy) (xf_stmts f)) (xf_tools f) hs (xf_store f)).

(** ** Path length, hit count, tool update *)
(** excellon.py:321-339; math.hypot of the difference is any function of the two points. *)
Section Path.
Variable D : Type.
Variable zero : D.
Variable add : D -> D -> D.
Variable dist : point -> point -> D.
Fixpoint path_loop (s : list tool) (hs : list hit) (lengths : list (Z * D)) (positions : list (Z * point)) : res (list (Z * D)) :=
  match hs with
  | [] => Ok lengths
  | h :: hs' =>
      do t <- tool_at s (hit_tool h);
      match h with
      | Slot _ _ _ _ => Err AttributeError
      | Hit _ p =>
          let n := t_num t in
          let q := match dget n positions with None => (0, 0) | Some q => q end in
          let l := match dget n lengths with None => zero | Some l => l end in
          path_loop s hs' (dput n (add l (dist q p)) lengths) (dput n p positions)
      end
  end.
Definition path_lengths (f : xfile) : res (list (Z * D)) := path_loop (xf_store f) (xf_hits f) [] [].
Definition path_length (f : xfile) (n : Z) : res (option D) := do l <- path_lengths f; Ok (dget n l).
End Path.
(** excellon.py:341-348 *)
Fixpoint hit_counts (s : list tool) (tools : list (Z * tloc)) (counts : list (Z * nat)) : res (list (Z * nat)) :=
  match tools with
  | [] => Ok counts
  | (_, l) :: tools' => do t <- tool_at s (Some l); hit_counts s tools' (dput (t_num t) (t_hits t) counts)
  end.
Definition hit_count (f : xfile) (n : Z) : res (option nat) := do c <- hit_counts (xf_store f) (xf_tools f) []; Ok (dget n c).

(** The six keyword arguments of update_tool. *)
Record update := mkUpdate { u_feed : option Qc; u_retract : option Qc; u_rpm : option Qc; u_diam : option Qc; u_maxhit : option Qc; u_depth : option Qc }.
Definition over (new old : option Qc) : option Qc := match new with Some v => Some v | None => old end.
Definition apply_update (u : update) (t : tool) : tool :=
  mkTool (t_num t) (over (u_retract u) (t_retract t)) (over (u_feed u) (t_feed t)) (over (u_maxhit u) (t_maxhit t))
         (over (u_rpm u) (t_rpm t)) (over (u_diam u) (t_diam t)) (over (u_depth u) (t_depth t)) (t_plated t) (t_hits t) (t_set t).
Definition set_hit_tool (l : tloc) (h : hit) : hit := match h with Hit _ p => Hit (Some l) p | Slot _ a b r => Slot (Some l) a b r end.
(** excellon.py:350-369 *)
Definition update_tool (n : Z) (u : update) (f : xfile) : res xfile :=
  match dget n (xf_tools f) with
  | None => Err KeyError
  | Some l =>
      let s := tset (xf_store f) l (apply_update u) in
      do t <- tool_at s (Some l);
      do hs <- mapM (fun h => do t' <- tool_at s (hit_tool h);
                              Ok (if (t_num t' =? t_num t)%Z then set_hit_tool l h else h)) (xf_hits f);
      Ok (mkXfile (xf_set f) (xf_stmts f) (xf_tools f) hs s)
  end.

(** ** Bounding box and primitives *)
(** excellon.py:114-119, 156-162 *)
Definition half (q : Qc) : Qc := q / zq 2.
Definition hit_box (s : list tool) (h : hit) : res ((Qc * Qc) * (Qc * Qc)) :=
  do t <- tool_at s (hit_tool h);
  match t_diam t with
  | None => Err TypeError
  | Some d =>
      match h with
      | Hit _ p => Ok ((fst p - half d, fst p + half d), (snd p - half d, snd p + half d))
      | Slot _ (Some a, Some b) (Some x, Some y) _ =>
          Ok ((qcmin a x - half d, qcmax a x + half d), (qcmin b y - half d, qcmax b y + half d))
      | Slot _ _ _ _ => Err TypeError
      end
  end.
(** excellon.py:224-234 *)
Definition sentinel : Qc := zq 100000000000.
Definition join_box (a b : (Qc * Qc) * (Qc * Qc)) : (Qc * Qc) * (Qc * Qc) :=
  let '((ax, aX), (ay, aY)) := a in let '((bx, bX), (by_, bY)) := b in
  ((qcmin bx ax, qcmax bX aX), (qcmin by_ ay, qcmax bY aY)).
Fixpoint boxes (s : list tool) (hs : list hit) (acc : (Qc * Qc) * (Qc * Qc)) : res ((Qc * Qc) * (Qc * Qc)) :=
  match hs with
  | [] => Ok acc
  | h :: hs' => do b <- hit_box s h; boxes s hs' (join_box acc b)
  end.
Definition bounding_box (f : xfile) : res ((Qc * Qc) * (Qc * Qc)) :=
  boxes (xf_store f) (xf_hits f) ((sentinel, - sentinel), (sentinel, - sentinel)).
