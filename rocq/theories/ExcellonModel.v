(** Model of the Excellon statement classes (gerber/excellon_statements.py) and of ExcellonParser
    (gerber/excellon.py:372-795). *)
From Verif Require Import PyBase QcLib NumModel FmtModel Regex GerberText.
Open Scope Qc_scope.

(** ** Settings *)
(** 'leading' or 'trailing' (excellon.py:383); FileSettings(zeros=...) stores the other one as
    zero_suppression (cam.py:82-85, 104-112). *)
Inductive zkind := ZLead | ZTrail.
Definition suppression (z : zkind) : zmode := match z with ZLead => Trailing | ZTrail => Leading end.
Inductive notn := Absolute | Incremental.
Record xset := mkXset { xs_units : unit_; xs_format : fmt; xs_zeros : zkind; xs_notation : notn }.
Definition parse_value (se : xset) (t : text) : res Qc := parse_gerber_value t (xs_format se) (suppression (xs_zeros se)).
Definition write_value (se : xset) (v : Qc) : res text := write_gerber_value v (xs_format se) (suppression (xs_zeros se)).

(** ** Tools *)
Inductive plating := PYes | PNo | POptional.
(** excellon_statements.py:199-213.  Simplifications: a tool always has a number (a definition line
    starts with T); the settings of a tool are part of it (each tool has its own object). *)
Record tool := mkTool {
  t_num : Z; t_retract : option Qc; t_feed : option Qc; t_maxhit : option Qc; t_rpm : option Qc;
  t_diam : option Qc; t_depth : option Qc; t_plated : option plating; t_hits : nat; t_set : xset }.
(** Tools are shared by the table of tools, the hits and the statements: they live in a store. *)
Definition tloc := nat.
Definition tget (h : list tool) (l : tloc) : option tool := nth_error h l.
Fixpoint tset (h : list tool) (l : tloc) (f : tool -> tool) : list tool :=
  match h, l with
  | [], _ => []
  | t :: h', O => f t :: h'
  | t :: h', S l' => t :: tset h' l' f
  end.
Definition with_settings (se : xset) (t : tool) : tool :=
  mkTool (t_num t) (t_retract t) (t_feed t) (t_maxhit t) (t_rpm t) (t_diam t) (t_depth t) (t_plated t) (t_hits t) se.
Definition with_plated (p : option plating) (t : tool) : tool :=
  mkTool (t_num t) (t_retract t) (t_feed t) (t_maxhit t) (t_rpm t) (t_diam t) (t_depth t) p (t_hits t) (t_set t).
(** excellon_statements.py:250-251 _hit *)
Definition count_hit (t : tool) : tool :=
  mkTool (t_num t) (t_retract t) (t_feed t) (t_maxhit t) (t_rpm t) (t_diam t) (t_depth t) (t_plated t) (S (t_hits t)) (t_set t).
(** excellon.py:665-668 and excellon_statements.py:199-213 *)
Definition plain_tool (n : Z) (d : Qc) (se : xset) : tool := mkTool n None None None None (Some d) None None 0 se.

(** python dicts: insertion order, keys unique. *)
Fixpoint dget {A} (k : Z) (d : list (Z * A)) : option A :=
  match d with [] => None | (j, a) :: d' => if (j =? k)%Z then Some a else dget k d' end.
Fixpoint dput {A} (k : Z) (a : A) (d : list (Z * A)) : list (Z * A) :=
  match d with [] => [(k, a)] | (j, b) :: d' => if (j =? k)%Z then (j, a) :: d' else (j, b) :: dput k a d' end.

(** ** Statements *)
Inductive cmode := Rout | Linear.
Inductive estmt :=
| ETool (t : tloc)                                   (* ExcellonTool *)
| ESel (tool : Z) (comp : option Z)                  (* ToolSelectionStmt *)
| ENext (cur : tloc) (next : option tloc)            (* NextToolSelectionStmt *)
| EFeed (rate : Z)                                   (* ZAxisInfeedRateStmt *)
| ECoord (mode : option cmode) (x y : option Qc)     (* CoordinateStmt *)
| ERepeat (count : Z) (x y : option Qc)              (* RepeatHoleStmt *)
| EComment (t : text)
| EHeaderBegin | EHeaderEnd | ERewind | EZRout | ERetractC | ERetract | ECutOff | ECutLeft | ECutRight
| EEnd (x y : option Qc)                             (* EndOfProgramStmt *)
| EUnit (u : unit_) (z : zkind) (f : option fmt)
| EInc (on : bool)
| EVer (n : Z) | EFmat (n : Z)
| EMeasure (u : unit_)
| ERoute | EDrill | EAbs
| EUnknown (t : text)
| ESlot (xs ys xe ye : option Qc).                   (* SlotStmt *)

(** ** Reading statements *)
(** int(str), with surrounding white space. *)
Definition py_int_s (s : text) : res Z := py_int (strip s).
(** The part common to CoordinateStmt.from_excellon (excellon_statements.py:380-395) and
    SlotStmt.parse_sub_coords (excellon_statements.py:873-890). *)
Definition read_xy (se : xset) (line : text) : res (option Qc * option Qc) :=
  match line with
  | [] => Err IndexError
  | c :: _ =>
      if ceq c "X"%char then
        match split_on "Y"%char (strip_p (ceq "X"%char) line) with
        | [a; b] => do x <- parse_value se a; do y <- parse_value se b; Ok (Some x, Some y)
        | a :: _ => do x <- parse_value se a; Ok (Some x, None)
        | [] => Err IndexError                       (* split never returns an empty list *)
        end
      else
        do y <- parse_value se (strip_p (fun c => ceq c " "%char || ceq c "Y"%char) line); Ok (None, Some y)
  end.
(** s.split(sep) for a longer separator: the parts before the first and the second occurrence. *)
Fixpoint split_text (fuel : nat) (sep s : text) : list text :=
  match fuel with
  | O => [s]
  | S fuel' =>
      match s with
      | [] => [[]]
      | c :: s' =>
          match strip_prefix sep s with
          | Some r => [] :: split_text fuel' sep r
          | None => match split_text fuel' sep s' with w :: ws => (c :: w) :: ws | [] => [[c]] end
          end
      end
  end.
(** excellon_statements.py:856-871 SlotStmt.from_excellon *)
Definition read_slot (se : xset) (line : text) : res (option Qc * option Qc * option Qc * option Qc) :=
  match split_text (S (List.length line)) (T "G85") line with
  | a :: b :: _ =>
      do s <- read_xy se a; do e <- read_xy se b;
      Ok (fst s, snd s, match fst e with None => fst s | v => v end, match snd e with None => snd s | v => v end)
  | _ => Err IndexError
  end.
(** The value of a group, None when it is empty. *)
Definition opt_value (se : xset) (o : option text) : res (option Qc) :=
  match dflt o with [] => Ok None | t => do v <- parse_value se t; Ok (Some v) end.
(** [+\-]?\d*\.?\d* *)
Definition signed_re : re := Seq (Opt (Cls (one_of "+-"))) (Seq (Star is_digit) (Seq (Opt (chr ".")) (Star is_digit))).
Definition unsigned_re : re := Seq (Star is_digit) (Seq (Opt (chr ".")) (Star is_digit)).
(** excellon_statements.py:451-464 RepeatHoleStmt.from_excellon *)
Definition repeat_re : re :=
  Seq (Lit (T "R")) (Seq (Grp (T "rcount") (Star is_digit)) (Seq (Opt (chr "X")) (Seq (Opt (Grp (T "xdelta") signed_re))
      (Seq (Opt (chr "Y")) (Opt (Grp (T "ydelta") signed_re)))))).
Definition read_repeat (se : xset) (line : text) : res (Z * option Qc * option Qc) :=
  match re_match repeat_re line with
  | Some (g, _) =>
      do n <- py_int (dflt (group "rcount" g));
      do x <- opt_value se (group "xdelta" g); do y <- opt_value se (group "ydelta" g); Ok (n, x, y)
  | None => Err AttributeError
  end.
(** excellon_statements.py:603-616 EndOfProgramStmt.from_excellon *)
Definition end_re : re :=
  Seq (Lit (T "M30")) (Seq (Opt (chr "X")) (Seq (Opt (Grp (T "x") unsigned_re)) (Seq (Opt (chr "Y")) (Opt (Grp (T "y") unsigned_re))))).
Definition read_end (se : xset) (line : text) : res (option Qc * option Qc) :=
  match re_match end_re line with
  | Some (g, _) => do x <- opt_value se (group "x" g); do y <- opt_value se (group "y" g); Ok (x, y)
  | None => Err AttributeError
  end.
(** excellon_statements.py:279-300 ToolSelectionStmt.from_excellon; the argument is line[1:] *)
Definition read_sel (line : text) : res (Z * option Z) :=
  if (List.length line <=? 3)%nat then do n <- py_int_s line; Ok (n, None)
  else do n <- py_int_s (firstn 2 line); do c <- py_int_s (skipn 2 line); Ok (n, Some c).
(** pairwise(re.split('([BCFHSTZ])', line)[1:]) (excellon_statements.py:155): each letter with the
    text up to the next one. *)
Definition is_cmd (c : ascii) : bool := char_in c (T "BCFHSTZ").
Fixpoint commands (line : text) : list (ascii * text) :=
  match line with
  | [] => []
  | c :: r => if is_cmd c then (c, (fix val (s : text) : text := match s with d :: s' => if is_cmd d then [] else d :: val s' | [] => [] end) r) :: commands r
              else commands r
  end.
(** excellon_statements.py:155-179 ExcellonTool.from_excellon; a missing T is an error here (the
    number would be None, see [tool]). *)
Definition set_param (se : xset) (cv : ascii * text) (n : option Z) (t : tool) : res (option Z * tool) :=
  let (c, v) := cv in
  let num f := do q <- parse_value se v; Ok (n, f (Some q)) in
  if ceq c "B"%char then num (fun q => mkTool (t_num t) q (t_feed t) (t_maxhit t) (t_rpm t) (t_diam t) (t_depth t) (t_plated t) (t_hits t) (t_set t))
  else if ceq c "C"%char then num (fun q => mkTool (t_num t) (t_retract t) (t_feed t) (t_maxhit t) (t_rpm t) q (t_depth t) (t_plated t) (t_hits t) (t_set t))
  else if ceq c "F"%char then num (fun q => mkTool (t_num t) (t_retract t) q (t_maxhit t) (t_rpm t) (t_diam t) (t_depth t) (t_plated t) (t_hits t) (t_set t))
  else if ceq c "H"%char then num (fun q => mkTool (t_num t) (t_retract t) (t_feed t) q (t_rpm t) (t_diam t) (t_depth t) (t_plated t) (t_hits t) (t_set t))
  else if ceq c "S"%char then do q <- parse_value se v;
    Ok (n, mkTool (t_num t) (t_retract t) (t_feed t) (t_maxhit t) (Some (zq 1000 * q)) (t_diam t) (t_depth t) (t_plated t) (t_hits t) (t_set t))
  else if ceq c "T"%char then do k <- py_int_s v;
    Ok (Some k, mkTool k (t_retract t) (t_feed t) (t_maxhit t) (t_rpm t) (t_diam t) (t_depth t) (t_plated t) (t_hits t) (t_set t))
  else num (fun q => mkTool (t_num t) (t_retract t) (t_feed t) (t_maxhit t) (t_rpm t) (t_diam t) q (t_plated t) (t_hits t) (t_set t)).
Fixpoint set_params (se : xset) (l : list (ascii * text)) (n : option Z) (t : tool) : res (option Z * tool) :=
  match l with
  | [] => Ok (n, t)
  | cv :: l' => do r <- set_param se cv n t; set_params se l' (fst r) (snd r)
  end.
Definition read_tool (se : xset) (plated : option plating) (line : text) : res tool :=
  do r <- set_params se (commands line) None (mkTool 0 None None None None None None plated 0 se);
  match fst r with Some _ => Ok (snd r) | None => Err GenericException end.
(** excellon_statements.py:661-673 UnitStmt.from_excellon *)
Definition read_unit (line : text) : unit_ * zkind * option fmt :=
  (if text_in (T "INCH") line then Inch else Metric,
   if text_in (T "LZ") line then ZLead else ZTrail,
   if text_in (T "0000.00") line then Some (4, 2)%nat
   else if text_in (T "000.000") line then Some (3, 3)%nat
   else if text_in (T "00.0000") line then Some (2, 4)%nat else None).
(** int(line.split(',')[1]), which must be 1 or 2: excellon_statements.py:714-724 and 732-742 *)
Definition read_one_or_two (line : text) : res Z :=
  match split_on ","%char line with
  | _ :: a :: _ => do n <- py_int_s a; if (n =? 1)%Z || (n =? 2)%Z then Ok n else Err ValueError
  | _ => Err IndexError
  end.
(** tuple(int(x) for x in comment.split('=')[1].split(':')) (excellon.py:456-457) *)
Definition read_format (comment : text) : res (list Z) :=
  match split_on "="%char comment with
  | _ :: a :: _ => mapM py_int_s (split_on ":"%char a)
  | _ => Err IndexError
  end.

(** ** The parser *)
Inductive pstate := SInit | SHeader | SDrill | SRout | SLinear.
Definition point := (Qc * Qc)%type.
Definition opoint := (option Qc * option Qc)%type.
(** excellon.py:87-168 DrillHit and DrillSlot *)
Inductive hit :=
| Hit (tool : option tloc) (pos : point)
| Slot (tool : option tloc) (start end_ : opoint) (rout : bool).
(** excellon.py:380-401.  The format is any tuple of integers. *)
Record xst := mkSt {
  x_units : unit_; x_zeros : zkind; x_notation : notn; x_format : list Z; x_state : pstate;
  x_stmts : list estmt; x_store : list tool; x_tools : list (Z * tloc); x_ctools : list (Z * tloc); x_ext : list (Z * tloc);
  x_hits : list hit; x_active : option tloc; x_pos : point; x_down : bool; x_prev : text; x_plated : option plating }.

Definition add_stmt (s : estmt) (st : xst) : xst :=
  mkSt (x_units st) (x_zeros st) (x_notation st) (x_format st) (x_state st) (x_stmts st ++ [s]) (x_store st) (x_tools st) (x_ctools st) (x_ext st)
       (x_hits st) (x_active st) (x_pos st) (x_down st) (x_prev st) (x_plated st).
Definition with_stmts (l : list estmt) (st : xst) : xst :=
  mkSt (x_units st) (x_zeros st) (x_notation st) (x_format st) (x_state st) l (x_store st) (x_tools st) (x_ctools st) (x_ext st)
       (x_hits st) (x_active st) (x_pos st) (x_down st) (x_prev st) (x_plated st).
Definition with_state (s : pstate) (st : xst) : xst :=
  mkSt (x_units st) (x_zeros st) (x_notation st) (x_format st) s (x_stmts st) (x_store st) (x_tools st) (x_ctools st) (x_ext st)
       (x_hits st) (x_active st) (x_pos st) (x_down st) (x_prev st) (x_plated st).
Definition with_down (b : bool) (st : xst) : xst :=
  mkSt (x_units st) (x_zeros st) (x_notation st) (x_format st) (x_state st) (x_stmts st) (x_store st) (x_tools st) (x_ctools st) (x_ext st)
       (x_hits st) (x_active st) (x_pos st) b (x_prev st) (x_plated st).
Definition with_prev (p : text) (st : xst) : xst :=
  mkSt (x_units st) (x_zeros st) (x_notation st) (x_format st) (x_state st) (x_stmts st) (x_store st) (x_tools st) (x_ctools st) (x_ext st)
       (x_hits st) (x_active st) (x_pos st) (x_down st) p (x_plated st).
Definition with_plating (p : option plating) (st : xst) : xst :=
  mkSt (x_units st) (x_zeros st) (x_notation st) (x_format st) (x_state st) (x_stmts st) (x_store st) (x_tools st) (x_ctools st) (x_ext st)
       (x_hits st) (x_active st) (x_pos st) (x_down st) (x_prev st) p.
Definition with_format (f : list Z) (st : xst) : xst :=
  mkSt (x_units st) (x_zeros st) (x_notation st) f (x_state st) (x_stmts st) (x_store st) (x_tools st) (x_ctools st) (x_ext st)
       (x_hits st) (x_active st) (x_pos st) (x_down st) (x_prev st) (x_plated st).
Definition with_units (u : unit_) (st : xst) : xst :=
  mkSt u (x_zeros st) (x_notation st) (x_format st) (x_state st) (x_stmts st) (x_store st) (x_tools st) (x_ctools st) (x_ext st)
       (x_hits st) (x_active st) (x_pos st) (x_down st) (x_prev st) (x_plated st).
Definition with_zeros (z : zkind) (st : xst) : xst :=
  mkSt (x_units st) z (x_notation st) (x_format st) (x_state st) (x_stmts st) (x_store st) (x_tools st) (x_ctools st) (x_ext st)
       (x_hits st) (x_active st) (x_pos st) (x_down st) (x_prev st) (x_plated st).
Definition with_notation (n : notn) (st : xst) : xst :=
  mkSt (x_units st) (x_zeros st) n (x_format st) (x_state st) (x_stmts st) (x_store st) (x_tools st) (x_ctools st) (x_ext st)
       (x_hits st) (x_active st) (x_pos st) (x_down st) (x_prev st) (x_plated st).
Definition with_pos (p : point) (st : xst) : xst :=
  mkSt (x_units st) (x_zeros st) (x_notation st) (x_format st) (x_state st) (x_stmts st) (x_store st) (x_tools st) (x_ctools st) (x_ext st)
       (x_hits st) (x_active st) p (x_down st) (x_prev st) (x_plated st).
Definition with_active (a : option tloc) (st : xst) : xst :=
  mkSt (x_units st) (x_zeros st) (x_notation st) (x_format st) (x_state st) (x_stmts st) (x_store st) (x_tools st) (x_ctools st) (x_ext st)
       (x_hits st) a (x_pos st) (x_down st) (x_prev st) (x_plated st).
Definition with_tools (h : list tool) (d : list (Z * tloc)) (st : xst) : xst :=
  mkSt (x_units st) (x_zeros st) (x_notation st) (x_format st) (x_state st) (x_stmts st) h d (x_ctools st) (x_ext st)
       (x_hits st) (x_active st) (x_pos st) (x_down st) (x_prev st) (x_plated st).
Definition with_ctools (h : list tool) (d : list (Z * tloc)) (st : xst) : xst :=
  mkSt (x_units st) (x_zeros st) (x_notation st) (x_format st) (x_state st) (x_stmts st) h (x_tools st) d (x_ext st)
       (x_hits st) (x_active st) (x_pos st) (x_down st) (x_prev st) (x_plated st).
Definition with_hits (h : list tool) (l : list hit) (st : xst) : xst :=
  mkSt (x_units st) (x_zeros st) (x_notation st) (x_format st) (x_state st) (x_stmts st) h (x_tools st) (x_ctools st) (x_ext st)
       l (x_active st) (x_pos st) (x_down st) (x_prev st) (x_plated st).

(** excellon.py:749-751 _settings: a format that is not a pair is an error (cam.py:87-89).
    Simplification: negative digit counts are treated as errors here already. *)
Definition settings_of (st : xst) : res xset :=
  match x_format st with
  | [a; b] => if (a <? 0)%Z || (b <? 0)%Z then Err ValueError
              else Ok (mkXset (x_units st) (Z.to_nat a, Z.to_nat b) (x_zeros st) (x_notation st))
  | _ => Err ValueError
  end.
(** excellon.py:780-795 _get_tool *)
Definition adopt (n : Z) (l : tloc) (st : xst) : res xst :=
  do se <- settings_of st; Ok (with_tools (tset (x_store st) l (with_settings se)) (dput n l (x_tools st)) st).
Definition get_tool (n : Z) (st : xst) : res (option tloc * xst) :=
  match dget n (x_tools st) with
  | Some l => Ok (Some l, st)
  | None =>
      match dget n (x_ctools st) with
      | Some l => do st' <- adopt n l st; Ok (Some l, st')
      | None =>
          match dget n (x_ext st) with
          | Some l => do st' <- adopt n l st; Ok (Some l, st')
          | None => Ok (None, st)
          end
      end
  end.
(** The position after a coordinate (excellon.py:531-540 and four more times). *)
Definition go (n : notn) (p : point) (x y : option Qc) : point :=
  match n with
  | Absolute => (match x with Some v => v | None => fst p end, match y with Some v => v | None => snd p end)
  | Incremental => (match x with Some v => fst p + v | None => fst p end, match y with Some v => snd p + v | None => snd p end)
  end.
Definition move_to (x y : option Qc) (st : xst) : xst := with_pos (go (x_notation st) (x_pos st) x y) st.
(** "if not self.active_tool: self.active_tool = self._get_tool(1)" *)
Definition ensure_tool (st : xst) : res xst :=
  match x_active st with
  | Some _ => Ok st
  | None => do r <- get_tool 1 st; Ok (with_active (fst r) (snd r))
  end.
(** self.hits.append(...); self.active_tool._hit() *)
Definition add_hit (h : hit) (st : xst) : res xst :=
  match x_active st with
  | Some l => Ok (with_hits (tset (x_store st) l count_hit) (x_hits st ++ [h]) st)
  | None => Err AttributeError
  end.
Definition some_point (p : point) : opoint := (Some (fst p), Some (snd p)).

(** excellon.py:673-676: the new tool goes before the first tool definition or selection. *)
Fixpoint insert_tool (t : tloc) (l : list estmt) : list estmt :=
  match l with
  | [] => []
  | (ETool _ | ESel _ _) as s :: l' => ETool t :: s :: l'
  | s :: l' => s :: insert_tool t l'
  end.
(** excellon.py:682-688 *)
Fixpoint repeat_hits (n : nat) (dx dy : Qc) (st : xst) : res xst :=
  match n with
  | O => Ok st
  | S n' =>
      let st1 := with_pos (fst (x_pos st) + dx, snd (x_pos st) + dy) st in
      do st2 <- add_hit (Hit (x_active st1) (x_pos st1)) st1;
      repeat_hits n' dx dy st2
  end.

Section Parser.
(** The tool described by a comment with the word Holesize (excellon.py:476-479 with
    excellon_tool.py:52-112): any function; ToolModel.holesize is a model of it. *)
Variable holesize : unit_ -> text -> res (option tool).

(** excellon.py:450-479 *)
Definition comment_line (line : text) (st : xst) : res xst :=
  let c := lstrip ";"%char line in
  let st := add_stmt (EComment c) st in
  do st <- (if text_in (T "FILE_FORMAT") c then do f <- read_format c; Ok (with_format f st) else Ok st);
  let st := if text_in (T "TYPE=PLATED") c then with_plating (Some PYes) st else st in
  let st := if text_in (T "TYPE=NON_PLATED") c then with_plating (Some PNo) st else st in
  let st := if text_in (T "HEADER:") c then with_state SHeader st else st in
  if text_in (T " Holesize ") c then
    let st := with_state SHeader st in
    do se <- settings_of st;
    do o <- holesize (xs_units se) c;
    match o with
    | None => Ok st
    | Some t =>
        (* 753-765 _add_comment_tool *)
        let h := match dget (t_num t) (x_tools st) with
                 | Some l => tset (x_store st) l (fun e => match t_plated e with None => with_plated (t_plated t) e | Some _ => e end)
                 | None => x_store st
                 end in
        Ok (with_ctools (h ++ [t]) (dput (t_num t) (List.length h) (x_ctools st)) st)
    end
  else Ok st.

(** excellon.py:519-548 (G00) and 550-588 (G01) *)
Definition rout_line (m : cmode) (line : text) (st : xst) : res xst :=
  let st := with_state (match m with Rout => SRout | Linear => SLinear end) (add_stmt ERoute st) in
  do se <- settings_of st;
  do xy <- read_xy se (skipn 3 line);
  let start := x_pos st in
  let st := move_to (fst xy) (snd xy) (add_stmt (ECoord (Some m) (fst xy) (snd xy)) st) in
  match m with
  | Rout => Ok st
  | Linear =>
      if x_down st then
        do st <- ensure_tool st;
        add_hit (Slot (x_active st) (some_point start) (some_point (x_pos st)) true) st
      else Ok st
  end.
(** excellon.py:639-647: a tool definition in the header *)
Definition tool_line (line : text) (st : xst) : res xst :=
  if text_in (T ",OFF") line || text_in (T ",ON") line then Ok (add_stmt (EUnknown line) st)
  else
    do se <- settings_of st;
    do t <- read_tool se (x_plated st) line;
    (* 767-778 _merge_properties *)
    let t := match t_plated t with
             | Some _ => t
             | None => match dget (t_num t) (x_ext st) with
                       | Some l => match tget (x_store st) l with Some e => with_plated (t_plated e) t | None => t end
                       | None => t
                       end
             end in
    let l := List.length (x_store st) in
    Ok (add_stmt (ETool l) (with_tools (x_store st ++ [t]) (dput (t_num t) l (x_tools st)) st)).
(** excellon.py:651-680: a tool selection *)
Definition select_line (line : text) (st : xst) : res xst :=
  do nc <- read_sel (skipn 1 line);
  let (n, c) := nc : Z * option Z in
  let st := add_stmt (ESel n c) st in
  if (n =? 0)%Z then Ok st
  else
    do r <- get_tool n st;
    let (o, st) := r : option tloc * xst in
    match o with
    | Some l => Ok (with_active (Some l) st)
    | None =>
        do se <- settings_of st;
        let d := zq (16 + 8 * n) / zq 1000 in
        let d := match xs_units se with Inch => d | Metric => metric d end in
        let l := List.length (x_store st) in
        let st := with_tools (x_store st ++ [plain_tool n d se]) (dput n l (x_tools st)) st in
        Ok (with_active (Some l) (with_stmts (insert_tool l (x_stmts st)) st))
    end.
(** excellon.py:684-710 *)
Definition slot_line (line : text) (st : xst) : res xst :=
  do se <- settings_of st;
  do q <- read_slot se line;
  let '(xs, ys, xe, ye) := q in
  let st := move_to xe ye (add_stmt (ESlot xs ys xe ye) st) in
  match x_state st with
  | SDrill | SHeader =>
      do st <- ensure_tool st;
      add_hit (Slot (x_active st) (xs, ys) (xe, ye) false) st
  | _ => Ok st
  end.
(** excellon.py:711-744.  A rout in linear mode is not counted (735). *)
Definition coord_line (line : text) (st : xst) : res xst :=
  do se <- settings_of st;
  do xy <- read_xy se line;
  let start := x_pos st in
  let st := move_to (fst xy) (snd xy) (add_stmt (ECoord None (fst xy) (snd xy)) st) in
  match x_state st with
  | SLinear =>
      if x_down st then
        do st <- ensure_tool st;
        Ok (with_hits (x_store st) (x_hits st ++ [Slot (x_active st) (some_point start) (some_point (x_pos st)) true]) st)
      else Ok st
  | SDrill | SHeader =>
      do st <- ensure_tool st;
      add_hit (Hit (x_active st) (x_pos st)) st
  | _ => Ok st
  end.

Definition is_header (st : xst) : bool := match x_state st with SHeader => true | _ => false end.
Definition is_drill (st : xst) : bool := match x_state st with SDrill => true | _ => false end.

(** excellon.py:441-747 _parse_line *)
Definition parse_line (st : xst) (line : text) : res xst :=
  let line := x_prev st ++ line in
  let st := with_prev [] st in
  let is p := starts_with p line in
  let starts c := match line with d :: _ => ceq d c | [] => false end in
  match strip line with
  | [] => Ok st
  | stripped =>
      if starts ";"%char then comment_line line st
      else if is (T "M48") then Ok (with_state SHeader (add_stmt EHeaderBegin st))
      else if starts "%"%char then
        let st := add_stmt ERewind st in
        Ok (match x_state st with SHeader => with_state SDrill st | SInit => with_state SHeader st | _ => st end)
      else if is (T "M00") && is_drill st then
        match x_active st with
        | None => Err GenericException
        | Some l =>
            match tget (x_store st) l with
            | None => Err GenericException           (* unreachable: the active tool is in the store *)
            | Some t =>
                do r <- get_tool (t_num t + 1) st;
                Ok (with_active (fst r) (add_stmt (ENext l (fst r)) (snd r)))
            end
        end
      else if is (T "M95") then
        let st := add_stmt EHeaderEnd st in
        Ok (if is_header st then with_state SDrill st else st)
      else if is (T "M15") then Ok (with_down true (add_stmt EZRout st))
      else if is (T "M16") then Ok (with_down false (add_stmt ERetractC st))
      else if is (T "M17") then Ok (with_down false (add_stmt ERetract st))
      else if is (T "M30") then
        do se <- settings_of st; do xy <- read_end se line; Ok (add_stmt (EEnd (fst xy) (snd xy)) st)
      else if is (T "G00") then (if teq stripped (T "G00") then Ok (with_prev line st) else rout_line Rout line st)
      else if is (T "G01") then (if teq stripped (T "G01") then Ok (with_prev line st) else rout_line Linear line st)
      else if is (T "G05") then Ok (with_state SDrill (with_down false (add_stmt EDrill st)))
      else if text_in (T "INCH") line || text_in (T "METRIC") line then
        let '(u, z, f) := read_unit line in
        let st := with_zeros z (with_units u (add_stmt (EUnit u z f) st)) in
        Ok (match f with Some (a, b) => with_format [Z.of_nat a; Z.of_nat b] st | None => st end)
      else if is (T "M71") || is (T "M72") then
        let u := if text_in (T "M72") line then Inch else Metric in
        Ok (with_units u (add_stmt (EMeasure u) st))
      else if is (T "ICI") then
        let off := text_in (T "OFF") line in
        Ok (with_notation (if off then Absolute else Incremental) (add_stmt (EInc (negb off)) st))
      else if is (T "VER") then do n <- read_one_or_two line; Ok (add_stmt (EVer n) st)
      else if is (T "FMAT") then do n <- read_one_or_two line; Ok (with_format [n; 6 - n]%Z (add_stmt (EFmat n) st))
      else if is (T "G40") then Ok (add_stmt ECutOff st)
      else if is (T "G41") then Ok (add_stmt ECutLeft st)
      else if is (T "G42") then Ok (add_stmt ECutRight st)
      else if is (T "G90") then Ok (with_notation Absolute (add_stmt EAbs st))
      else if starts "F"%char then do n <- py_int_s (skipn 1 line); Ok (add_stmt (EFeed n) st)
      else if starts "T"%char then (if is_header st then tool_line line st else select_line line st)
      else if starts "R"%char && negb (is_header st) then
        do se <- settings_of st; do r <- read_repeat se line;
        let '(n, x, y) := r in
        repeat_hits (Z.to_nat n) (match x with Some v => v | None => 0 end) (match y with Some v => v | None => 0 end)
                    (add_stmt (ERepeat n x y) st)
      else if starts "X"%char || starts "Y"%char then
        (if text_in (T "G85") line then slot_line line st else coord_line line st)
      else Ok (add_stmt (EUnknown line) st)
  end.

Fixpoint parse_lines (st : xst) (l : list text) : res xst :=
  match l with [] => Ok st | t :: l' => do st' <- parse_line st t; parse_lines st' l' end.
(** Iteration over StringIO(data), each line stripped (excellon.py:434-435).  A last empty line,
    which python does not yield, changes nothing. *)
Definition lines_of (data : text) : list text := map strip (split_on nl data).
End Parser.

(** excellon.py:380-401: a parser with the given settings and external tools. *)
Definition x_start (se : xset) (ext : list tool) : xst :=
  mkSt (xs_units se) (xs_zeros se) (xs_notation se) [Z.of_nat (fst (xs_format se)); Z.of_nat (snd (xs_format se))] SInit [] ext [] []
       (fold_left (fun d it => dput (t_num (snd it)) (fst it) d) (combine (seq 0 (List.length ext)) ext) [])
       [] None (0, 0) false [] None.
(** excellon.py:382-384: the defaults *)
Definition x_default : xset := mkXset Inch (2, 4)%nat ZLead Absolute.

(** ** Files *)
(** excellon.py:433-439 parse_raw: every statement gets the final units; cam.py:215-229: the file
    takes over the settings, the zero suppression among them. *)
Record xfile := mkXfile { xf_set : xset; xf_stmts : list (estmt * unit_); xf_tools : list (Z * tloc); xf_hits : list hit; xf_store : list tool }.
Definition parse_raw (holesize : unit_ -> text -> res (option tool)) (se : xset) (ext : list tool) (data : text) : res xfile :=
  do st <- parse_lines holesize (x_start se ext) (lines_of data);
  do se' <- settings_of st;
  Ok (mkXfile se' (map (fun s => (s, x_units st)) (x_stmts st)) (x_tools st) (x_hits st) (x_store st)).
