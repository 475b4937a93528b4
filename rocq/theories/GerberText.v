(** Model of the text level of gerber/rs274x.py (regular expressions, GerberParser._parse) and of the
    statement classes of gerber/gerber_statements.py (from_dict / from_gerber / to_gerber). *)
From Verif Require Import PyBase QcLib NumModel FmtModel MacroModel SplitModel Regex.
Open Scope Qc_scope.

(** The strings 'inch' and 'metric'. *)
Inductive unit_ := Inch | Metric.

(** The part of FileSettings the parser reads and writes (cam.py:26-112): zero_suppression, format,
    notation, units. *)
Record pset := mkPset { p_zs : zmode; p_fmt : fmt; p_abs : bool; p_units : unit_ }.

(** FileSettings() (cam.py:57-93; rs274x.py:242): absolute, inch, trailing, (2, 5). *)
Definition pset0 : pset := mkPset Trailing (2, 5)%nat true Inch.

Inductive onoff := On | Off.
Inductive quadrant := SingleQ | MultiQ.
Inductive polarity := Dark | Clear.

(** Statement objects (gerber_statements.py).  Attributes that hold one of a fixed set of strings are
    enumerations; [function] and [op] of a coordinate statement stay strings because several
    spellings ('G1', 'G01') are compared by the evaluator.  The unit tag of every statement is not
    here (see GerberConv.v). *)
Inductive stmt :=
| SFS (zs : zmode) (abs : bool) (f : fmt)                     (* FSParamStmt, 95-170 *)
| SMO (param : bool) (u : unit_)                              (* MOParamStmt, 173-226; param = "MO", or None from from_units *)
| SLP (p : polarity)                                          (* LPParamStmt, 229-264 *)
| SAD (d : Z) (shape : text) (mods : list (list Qc))          (* ADParamStmt, 267-386 *)
| SAM (name macro : text) (prims : list text)                 (* AMParamStmt, 389-472; prims: text of the primitives built last *)
| SAS (mode : text)                                           (* ASParamStmt, 475-508 *)
| SIN (name : text)                                           (* INParamStmt, 511-542 *)
| SIP (positive : bool)                                       (* IPParamStmt, 545-579 *)
| SIR (angle : Z)                                             (* IRParamStmt, 582-614 *)
| SMI (a b : option Z)                                        (* MIParamStmt, 617-661 *)
| SOF (a b : option Qc)                                       (* OFParamStmt, 664-735 *)
| SSF (a b : option Qc)                                       (* SFParamStmt, 738-809 *)
| SLN (name : text)                                           (* LNParamStmt, 812-843 *)
| SDep (line : text)                                          (* DeprecatedStmt, 846-874 *)
| SCoord (func : option text) (x y i j : option Qc) (op : option text)   (* CoordStmt, 877-1069 *)
| SAp (d : Z) (deprecated : bool)                             (* ApertureStmt, 1072-1088 *)
| SCom (c : text)                                             (* CommentStmt, 1091-1103 *)
| SEof                                                        (* EofStmt, 1106-1117 *)
| SQuad (q : quadrant)                                        (* QuadrantModeStmt, 1120-1147 *)
| SReg (m : onoff)                                            (* RegionModeStmt, 1150-1174 *)
| SUnk (line : text).                                         (* UnknownStmt, 1177-1190 *)

(** ** Regular expressions, rs274x.py:183-232 *)

Definition L (s : string) : re := Lit (T s).
Fixpoint seqs (l : list re) : re := match l with [] => Eps | [r] => r | r :: l' => Seq r (seqs l') end.
Definition G (n : string) (r : re) : re := Grp (T n) r.
Definition not_in (s : string) : ascii -> bool := fun c => negb (char_in c (T s)).
Definition dot : ascii -> bool := fun c => negb (ceq c nl).            (* "." *)

(** 183-184 *)
Definition NUMBER : re := Seq (Opt (Cls (one_of "+-"))) (Plus_ is_digit).
Definition DECIMAL : re := seqs [Opt (Cls (one_of "+-")); Plus_ is_digit; Opt (Seq (Opt (L ".")) (Plus_ is_digit))].
(** 186 *)
Definition is_alpha (c : ascii) : bool :=
  let n := nat_of_ascii c in ((65 <=? n) && (n <=? 90) || (97 <=? n) && (n <=? 122))%nat.
Definition name_first (c : ascii) : bool := is_alpha c || char_in c (T "_$.").
Definition name_rest (c : ascii) : bool := name_first c || is_digit c || char_in c (T "+-").
Definition NAME : re := Seq (Cls name_first) (Plus_ name_rest).
Definition oct : re := Cls (one_of "01234567").
(** 188-217 *)
Definition FS : re := seqs [G "param" (L "FS"); Opt (G "zero" (Cls (one_of "LTD"))); G "notation" (Cls (one_of "AI"));
  Star (one_of "NG0123456789"); L "X"; G "x" (Seq oct oct); L "Y"; G "y" (Seq oct oct); Star (one_of "DM0123456789")].
Definition MO : re := seqs [G "param" (L "MO"); G "mo" (Alt (L "MM") (L "IN"))].
Definition LP : re := seqs [G "param" (L "LP"); G "lp" (Cls (one_of "DC"))].
Definition AD_SHAPE (shape comma : re) : re :=
  seqs [G "param" (L "AD"); L "D"; G "d" (Plus_ is_digit); G "shape" shape; comma; G "modifiers" (Star (not_in ",%"))].
Definition AD_CIRCLE : re := AD_SHAPE (L "C") (Opt (L ",")).
Definition AD_RECT : re := AD_SHAPE (L "R") (L ",").
Definition AD_OBROUND : re := AD_SHAPE (L "O") (L ",").
Definition AD_POLY : re := AD_SHAPE (L "P") (L ",").
Definition AD_MACRO : re := AD_SHAPE NAME (Opt (L ",")).
Definition AM : re := seqs [G "param" (L "AM"); G "name" NAME; L "*"; G "macro" (Star (not_in "%"))].
Definition IF_ : re := seqs [G "param" (L "IF"); G "filename" (Star dot)].
Definition AS : re := seqs [G "param" (L "AS"); G "mode" (Alt (L "AXBY") (L "AYBX"))].
Definition IN : re := seqs [G "param" (L "IN"); G "name" (Star dot)].
Definition IP : re := seqs [G "param" (L "IP"); G "ip" (Alt (L "POS") (L "NEG"))].
Definition IR : re := seqs [G "param" (L "IR"); G "angle" NUMBER].
Definition MI : re := seqs [G "param" (L "MI"); Opt (Seq (L "A") (G "a" (Cls (one_of "01"))));
  Opt (Seq (L "B") (G "b" (Cls (one_of "01"))))].
Definition OF : re := seqs [G "param" (L "OF"); Opt (Seq (L "A") (G "a" DECIMAL)); Opt (Seq (L "B") (G "b" DECIMAL))].
Definition SF : re := seqs [G "param" (L "SF"); G "discarded" (Star dot)].
Definition LN : re := seqs [G "param" (L "LN"); G "name" (Star dot)].

(** 219-222: PARAM_STMT, every entry wrapped as %?...\*%? *)
Definition param_wrap (r : re) : re := Seq (Opt (L "%")) (Seq r (Seq (L "*") (Opt (L "%")))).
Definition PARAM_STMT : list re := map param_wrap
  [FS; MO; LP; AD_CIRCLE; AD_RECT; AD_OBROUND; AD_POLY; AD_MACRO; AM; AS; IF_; IN; IP; IR; MI; OF; SF; LN].

(** 224-231 *)
Definition COORD_FUNCTION : re := seqs [L "G"; Opt (L "0"); Cls (one_of "123")].
Definition COORD_OP : re := seqs [L "D"; Opt (L "0"); Cls (one_of "123")].
Definition coord_part (c g : string) : re := Opt (Seq (L c) (G g NUMBER)).
Definition COORD_STMT : re := seqs [Opt (G "function" COORD_FUNCTION);
  coord_part "X" "x"; coord_part "Y" "y"; coord_part "I" "i"; coord_part "J" "j"; Opt (G "op" COORD_OP); L "*"].
(** 233-242 *)
Definition APERTURE_STMT : re := seqs [Opt (G "deprecated" (Alt (L "G54") (L "G55"))); L "D"; G "d" (Plus_ is_digit); L "*"].
Definition COMMENT_STMT : re := seqs [L "G"; Opt (L "0"); L "4"; G "comment" (Star (not_in "*")); Opt (L "*")].
Definition EOF_STMT : re := seqs [G "eof" (seqs [L "M"; Opt (L "0"); Cls (one_of "012")]); L "*"].
Definition REGION_MODE_STMT : re := seqs [G "mode" (seqs [L "G3"; Cls (one_of "67")]); L "*"].
Definition QUAD_MODE_STMT : re := seqs [G "mode" (seqs [L "G7"; Cls (one_of "45")]); L "*"].
Definition DEPRECATED_UNIT : re := seqs [G "mode" (seqs [L "G7"; Cls (one_of "01")]); L "*"].
Definition DEPRECATED_FORMAT : re := seqs [G "format" (seqs [L "G9"; Cls (one_of "01")]); L "*"].

(** rs274x.py:794-800 _match_one_from_many. *)
Fixpoint match_one_from_many (l : list re) (s : text) : option (caps * text) :=
  match l with
  | [] => None
  | r :: l' => match re_match r s with Some m => Some m | None => match_one_from_many l' s end
  end.

(** ** Statement constructors *)

Definition opt_is (o : option text) (s : string) : bool :=
  match o with Some t => teq t (T s) | None => false end.
Definition dflt (o : option text) : text := match o with Some t => t | None => [] end.

(** int(str) on an optional sign and digits. *)
Definition py_int (s : text) : res Z :=
  match s with
  | c :: r =>
      let (sg, ds) := if ceq c "-"%char then (-1, r)%Z else if ceq c "+"%char then (1, r)%Z else (1, s)%Z in
      match ds with [] => Err ValueError | _ => if all_digits ds then Ok (sg * dval ds)%Z else Err ValueError end
  | [] => Err ValueError
  end.

(** gerber_statements.py:104-120 FSParamStmt.from_dict: tuple(map(int, x)) of the two characters. *)
Definition fs_from_dict (g : caps) : stmt :=
  SFS (if opt_is (group "zero" g) "L" then Leading else if opt_is (group "zero" g) "T" then Trailing else NoSupp)
      (opt_is (group "notation" g) "A")
      (match dflt (group "x" g) with
       | [a; b] => (Z.to_nat (digit_val a), Z.to_nat (digit_val b))
       | _ => (0, 0)%nat    (* unreachable: the group is two characters *)
       end).

(** gerber_statements.py:350-356 ADParamStmt.__init__, modifiers given as text. *)
Definition read_modifiers (m : text) : res (list (list Qc)) :=
  match m with
  | [] => Ok [[]]
  | _ => mapM (fun part => mapM py_float (filter (fun x => match x with [] => false | _ => true end) (split_on "X"%char part)))
              (filter (fun x => match x with [] => false | _ => true end) (split_on ","%char m))
  end.

(** gerber_statements.py:316-356 ADParamStmt.from_dict. *)
Definition ad_from_dict (g : caps) : res stmt :=
  do d <- py_int (dflt (group "d" g));
  do m <- read_modifiers (dflt (group "modifiers" g));
  Ok (SAD d (dflt (group "shape" g)) m).

(** gerber_statements.py:393-425 AMParamStmt.from_dict: reading the macro may raise. *)
Definition am_from_dict (g : caps) : res stmt :=
  let m := dflt (group "macro" g) in
  do _ <- read_macro m; Ok (SAM (dflt (group "name" g)) m []).

(** int(None) and float(None) raise TypeError: the key is always present in the group dictionary, so
    the default of [stmt_dict.get('a', 0)] is never used (gerber_statements.py:620-625, 667-672). *)
Definition py_int_opt (o : option text) : res Z := match o with Some t => py_int t | None => Err TypeError end.
Definition py_float_opt (o : option text) : res Qc := match o with Some t => py_float t | None => Err TypeError end.
Definition mi_from_dict (g : caps) : res stmt :=
  do a <- py_int_opt (group "a" g); do b <- py_int_opt (group "b" g); Ok (SMI (Some a) (Some b)).
Definition of_from_dict (g : caps) : res stmt :=
  do a <- py_float_opt (group "a" g); do b <- py_float_opt (group "b" g); Ok (SOF (Some a) (Some b)).
(** gerber_statements.py:742-747: the groups a, b never exist, so both factors are 1. *)
Definition sf_from_dict : stmt := SSF (Some 1) (Some 1).

(** gerber_statements.py:890-910 CoordStmt.from_dict. *)
Definition parse_opt (st : pset) (o : option text) : res (option Qc) :=
  match o with
  | Some t => do v <- parse_gerber_value t (p_fmt st) (p_zs st); Ok (Some v)
  | None => Ok None
  end.
Definition coord_from_dict (st : pset) (g : caps) : res stmt :=
  do x <- parse_opt st (group "x" g);
  do y <- parse_opt st (group "y" g);
  do i <- parse_opt st (group "i" g);
  do j <- parse_opt st (group "j" g);
  Ok (SCoord (group "function" g) x y i j (group "op" g)).

(** ** The statement loop *)

(** One statement read from the front of [line]: the statement(s), the settings afterwards, the rest. *)
Definition outcome := (list stmt * pset * text)%type.

(** rs274x.py:362-422: a parameter.  [include name st] parses an included file. *)
Definition param_stmt (include : text -> pset -> res (list stmt * pset)) (st : pset) (g : caps) (r : text)
  : res outcome :=
  let p := group "param" g in
  if opt_is p "FS" then                                                        (* 365-370 *)
    match fs_from_dict g with
    | SFS zs abs f => Ok ([SFS zs abs f], mkPset zs f abs (p_units st), r)
    | s => Ok ([s], st, r)
    end
  else if opt_is p "MO" then                                                   (* 371-374 *)
    let u := if opt_is (group "mo" g) "IN" then Inch else Metric in
    Ok ([SMO true u], mkPset (p_zs st) (p_fmt st) (p_abs st) u, r)
  else if opt_is p "LP" then Ok ([SLP (if opt_is (group "lp" g) "C" then Clear else Dark)], st, r)
  else if opt_is p "AD" then do s <- ad_from_dict g; Ok ([s], st, r)
  else if opt_is p "AM" then do s <- am_from_dict g; Ok ([s], st, r)
  else if opt_is p "OF" then do s <- of_from_dict g; Ok ([s], st, r)
  else if opt_is p "IF" then                                                   (* 385-395 *)
    do x <- include (dflt (group "filename" g)) st; let '(l, st') := x in Ok (l, st', r)
  else if opt_is p "IN" then Ok ([SIN (dflt (group "name" g))], st, r)
  else if opt_is p "LN" then Ok ([SLN (dflt (group "name" g))], st, r)
  else if opt_is p "AS" then Ok ([SAS (dflt (group "mode" g))], st, r)
  else if opt_is p "IP" then Ok ([SIP (opt_is (group "ip" g) "POS")], st, r)
  else if opt_is p "IR" then do a <- py_int (dflt (group "angle" g)); Ok ([SIR a], st, r)
  else if opt_is p "MI" then do s <- mi_from_dict g; Ok ([s], st, r)
  else Ok ([sf_from_dict], st, r).                                             (* SF, the only one left *)

(** rs274x.py:338-477: one pass of the while loop; [None] when nothing was recognised
    (did_something stays False). *)
Definition parse_step (include : text -> pset -> res (list stmt * pset)) (st : pset) (line : text)
  : option (res outcome) :=
  match line with
  | [] => None
  | c :: rest =>
      if ceq c "*"%char then Some (Ok ([], st, rest))                          (* 340-343 *)
      else match re_match COORD_STMT line with
      | Some (g, r) => Some (do s <- coord_from_dict st g; Ok ([s], st, r))    (* 346-351 *)
      | None => match re_match APERTURE_STMT line with
      | Some (g, r) =>                                                         (* 354-359 *)
          Some (do d <- py_int (dflt (group "d" g));
                Ok ([SAp d (match group "deprecated" g with Some _ => true | None => false end)], st, r))
      | None => match match_one_from_many PARAM_STMT line with
      | Some (g, r) => Some (param_stmt include st g r)                        (* 362-422 *)
      | None => match re_match REGION_MODE_STMT line with
      | Some (_, r) => Some (Ok ([SReg (if starts_with (T "G36") line then On else Off)], st, r))     (* 425-430 *)
      | None => match re_match QUAD_MODE_STMT line with
      | Some (_, r) => Some (Ok ([SQuad (if starts_with (T "G74") line then SingleQ else MultiQ)], st, r))  (* 433-438 *)
      | None => match re_match COMMENT_STMT line with
      | Some (g, r) => Some (Ok ([SCom (dflt (group "comment" g))], st, r))    (* 441-446 *)
      | None => match re_match DEPRECATED_UNIT line with
      | Some (g, r) =>                                                         (* 449-457 *)
          let u := if text_in (T "G70") (dflt (group "mode" g)) then Inch else Metric in
          Some (Ok ([SMO true u], mkPset (p_zs st) (p_fmt st) (p_abs st) u, r))
      | None => match re_match DEPRECATED_FORMAT line with
      | Some (_, r) => Some (Ok ([SDep line], st, r))                          (* 459-464 *)
      | None => match re_match EOF_STMT line with
      | Some (_, r) => Some (Ok ([SEof], st, r))                               (* 467-472 *)
      | None => if char_in "*"%char rest then Some (Ok ([SUnk line], st, []))  (* 474-478: find('*') > 0 *)
                else None
      end end end end end end end end end
  end.

(** rs274x.py:336-478: the while loop over one line; the text left over becomes [oldline].  The loop
    is bounded by [fuel]; running out is the explicit [GenericException] (shown unreachable when the
    fuel exceeds the length of the line). *)
Fixpoint parse_line (fuel : nat) (include : text -> pset -> res (list stmt * pset)) (st : pset) (line : text)
  : res outcome :=
  match fuel with
  | O => Err GenericException
  | Datatypes.S fuel' =>
      match parse_step include st line with
      | None => Ok ([], st, line)
      | Some o =>
          do o1 <- o; let '(l, st', r) := o1 in
          do o2 <- parse_line fuel' include st' r; let '(l', st'', r') := o2 in
          Ok (l ++ l', st'', r')
      end
  end.

Definition ends_with_percent (s : text) : bool :=
  match rev s with c :: _ => ceq c "%"%char | [] => false end.

(** rs274x.py:331: a parameter continued on the next line. *)
Definition continues (line : text) : bool :=
  starts_with (T "%") line && negb (ends_with_percent line) && negb (char_in "%"%char (tl line)).

(** rs274x.py:320-480 GerberParser._parse over the commands. *)
Fixpoint parse_cmds (include : text -> pset -> res (list stmt * pset)) (st : pset) (oldline : text) (data : list text)
  : res (list stmt * pset) :=
  match data with
  | [] => Ok ([], st)
  | cmd :: data' =>
      let line := oldline ++ strip cmd in                                      (* 324 *)
      match line with
      | [] => parse_cmds include st oldline data'                              (* 327-328 *)
      | _ =>
          if continues line then parse_cmds include st line data'              (* 331-333 *)
          else
            do o <- parse_line (Datatypes.S (List.length line)) include st line;
            let '(l, st', old) := o in
            do o2 <- parse_cmds include st' old data'; let '(l', st'') := o2 in
            Ok (l ++ l', st'')
      end
  end.

(** The included file, by the name written in the file (rs274x.py:389: open and read; IOError or
    TypeError when there is no such file or no base file name). *)
Definition filesys := text -> res text.

(** rs274x.py:320-480 with includes: [depth] more levels of inclusion are allowed
    (INCLUDE_FILE_RECURSION_LIMIT - _recursion_depth).  At 0 the include raises IOError (395). *)
Fixpoint parse_data (depth : nat) (fs : filesys) (st : pset) (data : text) : res (list stmt * pset) :=
  parse_cmds
    (match depth with
     | O => fun _ _ => Err IOError
     | Datatypes.S n => fun name st' => do inc <- fs name; parse_data n fs st' inc
     end)
    st [] (split_commands data).

(** rs274x.py:238 INCLUDE_FILE_RECURSION_LIMIT. *)
Definition include_limit : nat := 10.

(** The statements of a file (the statement list of rs274x.py:267-277 before evaluation). *)
Definition parse_text (fs : filesys) (data : text) : res (list stmt * pset) := parse_data include_limit fs pset0 data.

(** ** Writing *)

(** ''.join(map(str, format)). *)
Definition show_fmt (f : fmt) : text := show_nat (Z.of_nat (fst f)) ++ show_nat (Z.of_nat (snd f)).

Fixpoint join (sep : text) (l : list text) : text :=
  match l with
  | [] => []
  | [x] => x
  | x :: l' => x ++ sep ++ join sep l'
  end.

(** gerber_statements.py:156-166 FSParamStmt.to_gerber. *)
Definition fs_to_gerber (zs : zmode) (abs : bool) (f : fmt) : text :=
  T "%FS" ++ (match zs with Leading => T "L" | _ => T "T" end) ++ (if abs then T "A" else T "I") ++
  T "X" ++ show_fmt f ++ T "Y" ++ show_fmt f ++ T "*%".

(** gerber_statements.py:978-996 CoordStmt.to_gerber. *)
Definition coord_field (st : pset) (c : string) (v : option Qc) : res text :=
  match v with
  | Some v => do t <- write_gerber_value v (p_fmt st) (p_zs st); Ok (T c ++ t)
  | None => Ok []
  end.

(** [any(self.modifiers)]: some tuple is not empty. *)
Definition any_mods (m : list (list Qc)) : bool := existsb (fun l => match l with [] => false | _ => true end) m.

Definition opt_field (c : string) (f : Qc -> text) (v : option Qc) : text :=
  match v with Some v => T c ++ f v | None => [] end.

(** stmt.to_gerber(settings), settings given. *)
Definition to_gerber (st : pset) (s : stmt) : res text :=
  match s with
  | SFS _ _ _ => Ok (fs_to_gerber (p_zs st) (p_abs st) (p_fmt st))                       (* 156-166 *)
  | SMO _ u => Ok (T "%MO" ++ (match u with Metric => T "MM" | Inch => T "IN" end) ++ T "*%")   (* 214-216 *)
  | SLP p => Ok (T "%LP" ++ (match p with Clear => T "C" | Dark => T "D" end) ++ T "*%")  (* 259-261 *)
  | SAD d shape m =>                                                                      (* 370-374 *)
      Ok (T "%ADD" ++ show_int d ++ shape ++
          (if any_mods m then T "," ++ join (T ",") (map (fun l => join (T "X") (map (fmt_g 4) l)) m) else []) ++ T "*%")
  | SAM name _ prims => Ok (T "%AM" ++ name ++ T "*" ++ List.concat prims ++ T "%")       (* 468-469 *)
  | SAS m => Ok (T "%AS" ++ m ++ T "*%")                                                  (* 504-505 *)
  | SIN n => Ok (T "%IN" ++ n ++ T "*%")                                                  (* 538-539 *)
  | SIP p => Ok (T "%IP" ++ (if p then T "POS" else T "NEG") ++ T "*%")                   (* 574-576 *)
  | SIR a => Ok (T "%IR" ++ show_int a ++ T "*%")                                         (* 610-611 *)
  | SMI a b => Ok (T "%MI" ++ (match a with Some a => T "A" ++ show_int a | None => [] end) ++
                   (match b with Some b => T "B" ++ show_int b | None => [] end) ++ T "*%")  (* 651-658 *)
  | SOF a b => Ok (T "%OF" ++ opt_field "A" (fun v => decimal_string v 5 false) a ++
                   opt_field "B" (fun v => decimal_string v 5 false) b ++ T "*%")         (* 699-705 *)
  | SSF a b => Ok (T "%SF" ++ opt_field "A" (fun v => decimal_string v 5 false) a ++
                   opt_field "B" (fun v => decimal_string v 5 false) b ++ T "*%")         (* 773-779 *)
  | SLN n => Ok (T "%LN" ++ n ++ T "*%")                                                  (* 839-840 *)
  | SDep l => Ok l                                                                        (* 870-871 *)
  | SCoord fn x y i j op =>                                                               (* 978-996 *)
      do tx <- coord_field st "X" x; do ty <- coord_field st "Y" y;
      do ti <- coord_field st "I" i; do tj <- coord_field st "J" j;
      Ok (dflt fn ++ tx ++ ty ++ ti ++ tj ++ dflt op ++ T "*")
  | SAp d dep => Ok ((if dep then T "G54D" else T "D") ++ show_int d ++ T "*")            (* 1081-1085 *)
  | SCom c => Ok (T "G04" ++ c ++ T "*")                                                  (* 1099-1100 *)
  | SEof => Ok (T "M02*")                                                                 (* 1113-1114 *)
  | SQuad q => Ok (match q with SingleQ => T "G74*" | MultiQ => T "G75*" end)             (* 1146-1147 *)
  | SReg m => Ok (match m with On => T "G36*" | Off => T "G37*" end)                      (* 1173-1174 *)
  | SUnk l => Ok l                                                                        (* 1185-1186 *)
  end.

(** rs274x.py:149-155 GerberFile.write: every statement on a line of its own. *)
Fixpoint write_file (st : pset) (l : list stmt) : res text :=
  match l with
  | [] => Ok []
  | s :: l' => do t <- to_gerber st s; do r <- write_file st l'; Ok (t ++ nl :: r)
  end.
