(** Comparison of statements: Statement.__eq__ (gerber/gerber_statements.py:70-71) and ExcellonStatement.__eq__
    (gerber/excellon_statements.py:70-71), which compare the dictionaries of the attributes. *)
From Verif Require Import PyBase QcLib NumModel GerberText ExcellonModel.
Import ListNotations.
Open Scope list_scope.

(** Values of attributes.  Integers, floats and booleans are equal when they are the same number (True is 1).
    Simplification: a tool is known by its place among the tools of the file (two tools of a file have different ids). *)
Inductive value :=
| VNone | VText (t : text) | VNum (q : Qc) | VTexts (l : list text) | VNums (l : list (list Qc)) | VTool (l : nat).

(** == of two lists (python) *)
Fixpoint list_eq {A} (eq : A -> A -> bool) (a b : list A) : bool :=
  match a, b with [], [] => true | x :: a', y :: b' => eq x y && list_eq eq a' b' | _, _ => false end.
(** == of two values of attributes (python) *)
Definition value_eq (v w : value) : bool :=
  match v, w with
  | VNone, VNone => true
  | VText a, VText b => teq a b
  | VNum a, VNum b => qceq a b
  | VTexts a, VTexts b => list_eq teq a b
  | VNums a, VNums b => list_eq (list_eq qceq) a b
  | VTool a, VTool b => Nat.eqb a b
  | _, _ => false
  end.

(** A dictionary of attributes, and == of two of them (python): the same number of keys, and the same value for each *)
Definition dict := list (string * value).
Fixpoint attr (k : string) (d : dict) : option value :=
  match d with [] => None | (k', v) :: d' => if String.eqb k k' then Some v else attr k d' end.
Definition dict_eq (a b : dict) : bool :=
  Nat.eqb (List.length a) (List.length b) &&
  forallb (fun kv => match attr (fst kv) b with Some w => value_eq (snd kv) w | None => false end) a.

(** How the values of attributes (cited with each class below) are represented: integers, True and False, values that
    may be None, format tuples (gerber_statements.py:154), units (50, 62, 65) *)
Definition vint (n : Z) : value := VNum (zq n).
Definition vbool (b : bool) : value := vint (if b then 1 else 0).
Definition vopt {A} (f : A -> value) (o : option A) : value := match o with Some a => f a | None => VNone end.
Definition vfmt (f : fmt) : value := VNums [[zq (Z.of_nat (fst f)); zq (Z.of_nat (snd f))]].
Definition vunits (u : unit_) : value := VText (match u with Inch => T "inch" | Metric => T "metric" end).

(** gerber_statements.py:48-50, 90-92: the attributes type, units and param *)
Definition base (type : string) (u : unit_) (rest : dict) : dict := ("type"%string, VText (T type)) :: ("units"%string, vunits u) :: rest.
Definition param (code : string) (u : unit_) (rest : dict) : dict := base "PARAM" u (("param"%string, VText (T code)) :: rest).

(** The attributes of the statements of a Gerber file.  Simplifications: the instructions of a macro, which are made
    of its text (421), are left out; the primitives of a macro are known by their text; the modifiers of an aperture
    are a list of tuples (353). *)
Definition gerber_dict (u : unit_) (s : stmt) : dict :=
  match s with
  | SFS zs abs f =>                                                            (* 151-154 *)
      param "FS" u [("zero_suppression"%string, VText (match zs with Leading => T "leading" | Trailing => T "trailing" | NoSupp => T "none" end));
                    ("notation"%string, VText (if abs then T "absolute" else T "incremental")); ("format"%string, vfmt f)]
  | SMO p m =>                                                                 (* 211-212 *)
      base "PARAM" u [("param"%string, if p then VText (T "MO") else VNone); ("mode"%string, vunits m)]
  | SLP p => param "LP" u [("lp"%string, VText (match p with Dark => T "dark" | Clear => T "clear" end))]   (* 256-257 *)
  | SAD d shape mods => param "AD" u [("d"%string, vint d); ("shape"%string, VText shape); ("modifiers"%string, VNums mods)]   (* 347-356 *)
  | SAM name macro prims => param "AM" u [("name"%string, VText name); ("macro"%string, VText macro); ("primitives"%string, VTexts prims)]   (* 417-422 *)
  | SAS mode => param "AS" u [("mode"%string, VText mode)]                     (* 501-502 *)
  | SIN name => param "IN" u [("name"%string, VText name)]                     (* 535-536 *)
  | SIP p => param "IP" u [("ip"%string, VText (if p then T "positive" else T "negative"))]   (* 571-572 *)
  | SIR a => param "IR" u [("angle"%string, vint a)]                           (* 607-608 *)
  | SMI a b => param "MI" u [("a"%string, vopt vint a); ("b"%string, vopt vint b)]   (* 647-649 *)
  | SOF a b => param "OF" u [("a"%string, vopt VNum a); ("b"%string, vopt VNum b)]   (* 695-697 *)
  | SSF a b => param "SF" u [("a"%string, vopt VNum a); ("b"%string, vopt VNum b)]   (* 769-771 *)
  | SLN name => param "LN" u [("name"%string, VText name)]                     (* 836-837 *)
  | SDep line => base "DEPRECATED" u [("line"%string, VText line)]             (* 867-868 *)
  | SCoord fn x y i j op =>                                                    (* 970-976 *)
      base "COORD" u [("function"%string, vopt VText fn); ("x"%string, vopt VNum x); ("y"%string, vopt VNum y); ("i"%string, vopt VNum i);
                      ("j"%string, vopt VNum j); ("op"%string, vopt VText op)]
  | SAp d dep => base "APERTURE" u [("d"%string, vint d); ("deprecated"%string, vbool dep)]   (* 1077-1079 *)
  | SCom c => base "COMMENT" u [("comment"%string, VText c)]                   (* 1096-1097 *)
  | SEof => base "EOF" u []                                                    (* 1111 *)
  | SQuad q => base "QuadrantMode" u [("mode"%string, VText (match q with SingleQ => T "single-quadrant" | MultiQ => T "multi-quadrant" end))]   (* 1139-1144 *)
  | SReg m => base "RegionMode" u [("mode"%string, VText (match m with On => T "on" | Off => T "off" end))]   (* 1167-1171 *)
  | SUnk line => base "UNKNOWN" u [("line"%string, VText line)]                (* 1182-1183 *)
  end.

(** What a statement is compared with: a statement, or a value without attributes (None, a number, a text) *)
Inductive other (A : Type) := Stmt (a : A) | Plain.
Arguments Stmt {A} a.
Arguments Plain {A}.

(** gerber_statements.py:70-71: statement == other; other.__dict__ raises AttributeError for a plain value *)
Definition gerber_eq (a : unit_ * stmt) (b : other (unit_ * stmt)) : res bool :=
  match b with
  | Stmt (u, s) => Ok (dict_eq (gerber_dict (fst a) (snd a)) (gerber_dict u s))
  | Plain => Err AttributeError
  end.

(** excellon_statements.py:53-55: the attributes units and id *)
Definition xbase (u : unit_) (id : Z) (rest : dict) : dict := ("units"%string, vunits u) :: ("id"%string, vint id) :: rest.

(** The attributes of the statements of a drill file; the classes without attributes of their own have the two above *)
Definition drill_dict (u : unit_) (id : Z) (s : estmt) : dict :=
  match s with
  | ETool t => xbase u id [("number"%string, VTool t)]                         (* 200-213 *)
  | ESel n c => xbase u id [("tool"%string, vint n); ("compensation_index"%string, vopt vint c)]   (* 304-310 *)
  | ENext c n => xbase u id [("cur_tool"%string, VTool c); ("next_tool"%string, vopt VTool n)]   (* 323-334 *)
  | EFeed r => xbase u id [("rate"%string, vint r)]                            (* 360-362 *)
  | ECoord m x y =>                                                            (* 396-400 *)
      xbase u id [("x"%string, vopt VNum x); ("y"%string, vopt VNum y);
                  ("mode"%string, vopt (fun m => VText (match m with Rout => T "ROUT" | Linear => T "LINEAR" end)) m)]
  | ERepeat n x y => xbase u id [("count"%string, vint n); ("xdelta"%string, vopt VNum x); ("ydelta"%string, vopt VNum y)]   (* 466-470 *)
  | EComment t => xbase u id [("comment"%string, VText t)]                     (* 511-513 *)
  | EEnd x y => xbase u id [("x"%string, vopt VNum x); ("y"%string, vopt VNum y)]   (* 617-620 *)
  | EUnit w z f =>                                                             (* 675-679: units is set again *)
      xbase w id [("zeros"%string, VText (match z with ZLead => T "leading" | ZTrail => T "trailing" end)); ("format"%string, vopt vfmt f)]
  | EInc on => xbase u id [("mode"%string, VText (if on then T "on" else T "off"))]   (* 701-705 *)
  | EVer n => xbase u id [("version"%string, vint n)]                          (* 718-723 *)
  | EFmat n => xbase u id [("format"%string, vint n)]                          (* 736-741 *)
  | EMeasure w => xbase w id []                                                (* 774-779: units is set again *)
  | EUnknown t => xbase u id [("stmt"%string, VText t)]                        (* 833-835 *)
  | ESlot xs ys xe ye =>                                                       (* 893-899 *)
      xbase u id [("x_start"%string, vopt VNum xs); ("y_start"%string, vopt VNum ys); ("x_end"%string, vopt VNum xe); ("y_end"%string, vopt VNum ye);
                  ("mode"%string, VNone)]
  | EHeaderBegin | EHeaderEnd | ERewind | EZRout | ERetractC | ERetract | ECutOff | ECutLeft | ECutRight
  | ERoute | EDrill | EAbs => xbase u id []                                    (* 519-597, 791-824 *)
  end.

(** excellon_statements.py:70-71 *)
Definition drill_eq (a : unit_ * Z * estmt) (b : other (unit_ * Z * estmt)) : res bool :=
  match a, b with
  | (u, id, s), Stmt (u', id', s') => Ok (dict_eq (drill_dict u id s) (drill_dict u' id' s'))
  | _, Plain => Err AttributeError
  end.
