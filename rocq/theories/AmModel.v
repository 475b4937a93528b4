(** Model of the primitives of aperture macros: gerber/am_statements.py and AMParamStmt.build / to_gerber
    (gerber/gerber_statements.py:389-472). *)
From Verif Require Import PyBase QcLib NumModel FmtModel FloatCodec ReprModel MacroModel GerberText GerberEval.
Open Scope Qc_scope.
Open Scope list_scope.

(** am_statements.py:92-1046: the primitive objects.  [on] is exposure == 'on'; the exposure of moires and
    thermals is always 'on' and is not kept.  validate_coordinates (utils.py:234-240) always succeeds on
    the pairs of floats made here. *)
Notation point := (Qc * Qc)%type.
Inductive amprim :=
| AComment (comment : text)                                                                  (* 92-148 *)
| ACircle (on : bool) (diameter : Qc) (position : point)                                     (* 151-221 *)
| AVector (code : Z) (on : bool) (width : Qc) (start end_ : point) (rotation : Qc)           (* 224-332 *)
| AOutline (on : bool) (start : point) (points : list point) (rotation : Qc)                 (* 335-453 *)
| APolygon (on : bool) (vertices : Z) (position : point) (diameter rotation : Qc)            (* 456-550 *)
| AMoire (position : point) (diameter ring gap : Qc) (rings : Z) (cross_thickness cross_length rotation : Qc) (* 553-665 *)
| AThermal (position : point) (outer inner gap rotation : Qc)                                (* 668-830 *)
| ACenter (on : bool) (width height : Qc) (center : point) (rotation : Qc)                   (* 833-945 *)
| ALower (on : bool) (width height : Qc) (lower_left : point) (rotation : Qc)                (* 948-1027 *)
| AUnsupported (primitive : text).                                                           (* 1030-1046 *)

(** ** Reading *)
(** [float(modifiers[i])]: the decimal rounded to double. *)
Definition num (m : list text) (i : nat) : res Qc := do t <- index m i; py_float_fl rnd53 t.
(** [float(modifiers[-1])]. *)
Definition last_num (m : list text) : res Qc :=
  match m with [] => Err IndexError | _ => py_float_fl rnd53 (List.last m []) end.
(** ['on' if float(modifiers[i]) == 1 else 'off']. *)
Definition exposure (m : list text) (i : nat) : res bool := do v <- num m i; Ok (qceq v 1).
Definition pair_at (m : list text) (i : nat) : res point := do x <- num m i; do y <- num m (S i); Ok (x, y).
(** [primitive.strip(' *').split(',')]. *)
Definition modifiers_of (primitive : text) : list text :=
  split_on ","%char (strip_p (fun c => ceq c " "%char || ceq c "*"%char) primitive).
Definition code_of (m : list text) : res Z := do t <- index m 0; py_int t.
(** __init__: the code is checked after all the modifiers have been converted. *)
Definition check (b : bool) : res unit := if b then Ok tt else Err ValueError.

(** am_statements.py:119-130. *)
Definition comment_from (primitive : text) : res amprim :=
  let p := strip primitive in
  match p with
  | [] => Err IndexError
  | c :: r => do code <- py_int [c]; do _ <- check (code =? 0)%Z;
              Ok (AComment (strip_p (fun c => ceq c " "%char || ceq c "*"%char) r))
  end.
(** am_statements.py:183-202. *)
Definition circle_from (m : list text) : res amprim :=
  do code <- code_of m; do on <- exposure m 1; do d <- num m 2; do p <- pair_at m 3;
  do _ <- check (code =? 1)%Z; Ok (ACircle on d p).
(** am_statements.py:268-288. *)
Definition vector_from (m : list text) : res amprim :=
  do code <- code_of m; do on <- exposure m 1; do w <- num m 2; do s <- pair_at m 3; do e <- pair_at m 5; do r <- num m 7;
  do _ <- check ((code =? 2) || (code =? 20))%Z; Ok (AVector code on w s e r).
(** am_statements.py:394-397: n points from the modifiers after the start point. *)
Fixpoint points_from (n : Z) (m : list text) : res (list point) :=
  if (n <=? 0)%Z then Ok []
  else match m with
       | [] => Err IndexError
       | [a] => do _ <- py_float_fl rnd53 a; Err IndexError
       | a :: b :: r => do x <- py_float_fl rnd53 a; do y <- py_float_fl rnd53 b; do l <- points_from (n - 1) r; Ok ((x, y) :: l)
       end.
Definition point_eqb (a b : point) : bool := qceq (fst a) (fst b) && qceq (snd a) (snd b).
(** am_statements.py:386-414. *)
Definition outline_from (m : list text) : res amprim :=
  do code <- code_of m; do on <- exposure m 1; do n <- num m 2; do s <- pair_at m 3;
  do l <- points_from (py_trunc n) (skipn 5 m); do r <- last_num m;
  do _ <- check (code =? 4)%Z;
  match l with
  | [] => Err IndexError                                                                     (* 411: points[-1] *)
  | _ => do _ <- check (point_eqb (List.last l (0, 0)) s); Ok (AOutline on s l r)
  end.
(** am_statements.py:500-527; any failure to read the diameter makes it 0 (507-510). *)
Definition polygon_from (m : list text) : res amprim :=
  do code <- code_of m; do on <- exposure m 1; do n <- num m 2; do p <- pair_at m 3;
  let d := match num m 5 with Ok d => d | Err _ => 0 end in
  do r <- num m 6;
  do _ <- check (code =? 5)%Z;
  let v := py_trunc n in
  do _ <- check (negb ((v <? 3) || (12 <? v)))%Z; Ok (APolygon on v p d r).
(** am_statements.py:601-629. *)
Definition moire_from (m : list text) : res amprim :=
  do code <- code_of m; do p <- pair_at m 1; do d <- num m 3; do th <- num m 4; do g <- num m 5; do n <- num m 6;
  do ct <- num m 7; do cl <- num m 8; do r <- num m 9;
  do _ <- check (code =? 6)%Z; Ok (AMoire p d th g (py_trunc n) ct cl r).
(** am_statements.py:707-727. *)
Definition thermal_from (m : list text) : res amprim :=
  do code <- code_of m; do p <- pair_at m 1; do o <- num m 3; do i <- num m 4; do g <- num m 5; do r <- num m 6;
  do _ <- check (code =? 7)%Z; Ok (AThermal p o i g r).
(** am_statements.py:880-899. *)
Definition center_from (m : list text) : res amprim :=
  do code <- code_of m; do on <- exposure m 1; do w <- num m 2; do h <- num m 3; do c <- pair_at m 4; do r <- num m 6;
  do _ <- check (code =? 21)%Z; Ok (ACenter on w h c r).
(** am_statements.py:986-1005. *)
Definition lower_from (m : list text) : res amprim :=
  do code <- code_of m; do on <- exposure m 1; do w <- num m 2; do h <- num m 3; do c <- pair_at m 4; do r <- num m 6;
  do _ <- check (code =? 22)%Z; Ok (ALower on w h c r).

(** gerber_statements.py:433-454: which class reads the primitive, by its first one or two characters. *)
Definition from_gerber (p : text) : res amprim :=
  match p with
  | [] => Err IndexError
  | c :: r =>
      let two := c :: firstn 1 r in
      if ceq c "0"%char then comment_from p
      else if ceq c "1"%char then circle_from (modifiers_of p)
      else if teq two (T "2,") || teq two (T "20") then vector_from (modifiers_of p)
      else if teq two (T "21") then center_from (modifiers_of p)
      else if teq two (T "22") then lower_from (modifiers_of p)
      else if ceq c "4"%char then outline_from (modifiers_of p)
      else if ceq c "5"%char then polygon_from (modifiers_of p)
      else if ceq c "6"%char then moire_from (modifiers_of p)
      else if ceq c "7"%char then thermal_from (modifiers_of p)
      else Ok (AUnsupported p)
  end.

(** str(x) of a value on the evaluation stack.  Simplification: the integer 0 that the evaluator pushes
    is written "0.0" like the float. *)
Definition mval_text (v : mval) : text := match v with MNum v => py_repr v | MText s => s end.
(** am_eval.py:106-108: the text of a primitive. *)
Definition yield_text (y : Z * list mval) : text := show_int (fst y) ++ T "," ++ join (T ",") (map mval_text (snd y)).

(** gerber_statements.py:427-454 AMParamStmt.build: the primitives.  Simplification: the evaluation
    finishes before the first primitive is made (python interleaves them, which matters only for which of
    two errors is raised). *)
Definition am_build (instrs : list instr) (modifiers : list Qc) : res (list amprim) :=
  do r <- eval_macro [] instrs (PSeq modifiers);
  mapM (fun y => from_gerber (yield_text y)) (fst r).

(** ** Writing *)
Definition expo (on : bool) : text := if on then T "1" else T "0".
Definition fields (l : list text) : text := join (T ",") l ++ T "*".
(** "%.Pg,%.Pg" % point. *)
Definition pt_text (P : nat) (p : point) : text := fmt_g P (fst p) ++ T "," ++ fmt_g P (snd p).
(** The to_gerber methods of am_statements.py. *)
Definition prim_to_gerber (p : amprim) : text :=
  match p with
  | AComment c => T "0 " ++ c ++ T " *"                                                      (* 138-139 *)
  | ACircle on d p => fields [T "1"; expo on; py_repr d; py_repr (fst p); py_repr (snd p)]   (* 212-218 *)
  | AVector code on w s e r =>                                                               (* 300-310 *)
      fields [show_int code; expo on; py_repr w; py_repr (fst s); py_repr (snd s); py_repr (fst e); py_repr (snd e); py_repr r]
  | AOutline on s l r =>                                                                     (* 424-433 *)
      fields [T "4"; expo on; show_nat (Z.of_nat (List.length l)); pt_text 6 s; join (T "," ++ [nl]) (map (pt_text 6) l); py_repr r]
  | APolygon on n p d r => fields [T "5"; expo on; show_int n; pt_text 4 p; fmt_g 4 d; py_repr r]   (* 537-547 *)
  | AMoire p d th g n ct cl r =>                                                             (* 648-661 *)
      fields [T "6"; pt_text 4 p; py_repr d; py_repr th; py_repr g; show_int n; py_repr ct; py_repr cl; py_repr r]
  | AThermal p o i g r => fields [T "7"; pt_text 4 p; py_repr o; py_repr i; py_repr g; py_repr r]    (* 741-751 *)
  | ACenter on w h c r => fields [T "21"; expo on; py_repr w; py_repr h; pt_text 4 c; py_repr r]     (* 911-921 *)
  | ALower on w h c r => fields [T "22"; expo on; py_repr w; py_repr h; pt_text 4 c; py_repr r]      (* 1017-1027 *)
  | AUnsupported t => t                                                                      (* 1045-1046 *)
  end.
(** gerber_statements.py:468-469 AMParamStmt.to_gerber after build. *)
Definition am_to_gerber (name : text) (prims : list amprim) : text :=
  T "%AM" ++ name ++ T "*" ++ List.concat (map prim_to_gerber prims) ++ T "%".

(** ** Unit conversion *)
Definition pmap (f : Qc -> Qc) (p : point) : point := (f (fst p), f (snd p)).
(** The to_inch and to_metric methods of am_statements.py, with f = inch or f = metric. *)
Definition prim_convert (f : Qc -> Qc) (p : amprim) : amprim :=
  match p with
  | AComment c => AComment c                                                                 (* 132-136 *)
  | ACircle on d p => ACircle on (f d) (pmap f p)                                            (* 204-210 *)
  | AVector c on w s e r => AVector c on (f w) (pmap f s) (pmap f e) r                       (* 290-298 *)
  | AOutline on s l r => AOutline on (pmap f s) (map (pmap f) l) r                           (* 416-422 *)
  | APolygon on n p d r => APolygon on n (pmap f p) (f d) r                                  (* 529-535 *)
  | AMoire p d th g n ct cl r => AMoire (pmap f p) (f d) (f th) (f g) n (f ct) (f cl) r      (* 631-645 *)
  | AThermal p o i g r => AThermal (pmap f p) (f o) (f i) (f g) r                            (* 729-739 *)
  | ACenter on w h c r => ACenter on (f w) (f h) (pmap f c) r                                (* 901-909 *)
  | ALower on w h c r => ALower on (f w) (f h) (pmap f c) r                                  (* 1007-1015 *)
  | AUnsupported t => AUnsupported t                                                         (* 1039-1043 *)
  end.
(** gerber_statements.py:456-469: the statement with its units; the guard converts at most once. *)
Record amstmt := mkAM { am_name : text; am_units : unit_; am_prims : list amprim }.
Definition am_to_inch (s : amstmt) : amstmt :=
  match am_units s with
  | Metric => mkAM (am_name s) Inch (map (prim_convert inch) (am_prims s))
  | Inch => s
  end.
Definition am_to_metric (s : amstmt) : amstmt :=
  match am_units s with
  | Inch => mkAM (am_name s) Metric (map (prim_convert metric) (am_prims s))
  | Metric => s
  end.
