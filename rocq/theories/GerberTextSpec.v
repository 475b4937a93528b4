(** Specification vocabulary for the text level of Gerber files: which statements have an exact
    textual form, and what a statement does to the settings it is read under. *)
From Verif Require Import PyBase QcLib NumModel NumSpec GerberText.
Open Scope Qc_scope.

(** Settings a Gerber format statement can announce. *)
Definition announceable (st : pset) : Prop :=
  p_zs st <> NoSupp /\ usable_format (fst (p_fmt st)) (snd (p_fmt st)).

(** A coordinate that the format represents exactly. *)
Definition on_grid (st : pset) (v : Qc) : Prop :=
  exists k, v = grid k (snd (p_fmt st)) /\ (Z.abs k < 10 ^ Z.of_nat (fst (p_fmt st) + snd (p_fmt st)))%Z.
Definition opt_on_grid (st : pset) (o : option Qc) : Prop :=
  match o with Some v => on_grid st v | None => True end.

(** A number with at most P significant decimal digits: an integer below 10^P times a power of ten. *)
Definition at_most_digits (P : nat) (v : Qc) : Prop :=
  exists m k l, (Z.abs m < 10 ^ Z.of_nat P)%Z /\ v * ten k = Q2Qc (inject_Z m) * ten l.

(** Names the Gerber format allows for macros, at least two characters long. *)
Definition letter : text := T "abcdefghijklmnopqrstuvwxyzABCDEFGHIJKLMNOPQRSTUVWXYZ_$.".
Definition macro_name (t : text) : Prop :=
  match t with
  | c :: r => In c letter /\ r <> [] /\ Forall (fun x => In x (letter ++ T "0123456789+-")) r
  | [] => False
  end.

Definition functions : list text := [T "G01"; T "G1"; T "G02"; T "G2"; T "G03"; T "G3"].
Definition operations : list text := [T "D01"; T "D1"; T "D02"; T "D2"; T "D03"; T "D3"].
Definition from_list (l : list text) (o : option text) : Prop :=
  match o with Some t => In t l | None => True end.

(** Statements whose text, written with settings [st], is exact. *)
Inductive writable (st : pset) : stmt -> Prop :=
| W_coord fn x y i j op :
    from_list functions fn -> from_list operations op ->
    opt_on_grid st x -> opt_on_grid st y -> opt_on_grid st i -> opt_on_grid st j ->
    (fn, x, y, i, j, op) <> (None, None, None, None, None, None) ->
    writable st (SCoord fn x y i j op)
| W_aperture d : (10 <= d)%Z -> writable st (SAp d false)
| W_aperture_deprecated d : (0 <= d)%Z -> writable st (SAp d true)
| W_polarity p : writable st (SLP p)
| W_format : writable st (SFS (p_zs st) (p_abs st) (p_fmt st))
| W_units u : writable st (SMO true u)
| W_region m : writable st (SReg m)
| W_quadrant q : writable st (SQuad q)
| W_comment c : Forall (fun x => ~ In x (T "*%" ++ [nl; cr])) c -> writable st (SCom c)
| W_eof : writable st SEof
| W_image_polarity p : writable st (SIP p)
| W_axis m : In m [T "AXBY"; T "AYBX"] -> writable st (SAS m)
| W_rotation a : writable st (SIR a)
| W_mirror a b : In a [0; 1]%Z -> In b [0; 1]%Z -> writable st (SMI (Some a) (Some b))
| W_define_circle d l : (0 <= d)%Z -> Forall (at_most_digits 4) l -> writable st (SAD d (T "C") [l])
| W_define_other d shape l : (0 <= d)%Z -> In shape [T "R"; T "O"; T "P"] -> l <> [] ->
    Forall (at_most_digits 4) l -> writable st (SAD d shape [l])
| W_define_macro d name l : (0 <= d)%Z -> macro_name name -> Forall (at_most_digits 4) l ->
    (l = [] -> forall r, name <> T "C" ++ r) -> writable st (SAD d name [l]).

(** The settings in force after a statement has been read. *)
Definition after (st : pset) (s : stmt) : pset :=
  match s with
  | SFS zs abs f => mkPset zs f abs (p_units st)
  | SMO _ u => mkPset (p_zs st) (p_fmt st) (p_abs st) u
  | _ => st
  end.

(** Five decimal places, ten digits, and not smaller than 1/10000 unless it is zero. *)
Definition five_places (v : Qc) : Prop := exists k, v = grid k 5 /\ (Z.abs k < 10 ^ 10)%Z /\ (k = 0%Z \/ (10 <= Z.abs k)%Z).

(** Statements that can be read back when each stands on a line of its own: the ones above, image
    and layer names (whose text may contain star characters), the deprecated format codes, image offsets
    and the scale factor one. *)
Inductive line_writable (st : pset) : stmt -> Prop :=
| LW_stmt s : writable st s -> line_writable st s
| LW_image_name n : Forall (fun x => ~ In x (T "%" ++ [nl; cr])) n -> line_writable st (SIN n)
| LW_layer_name n : Forall (fun x => ~ In x (T "%" ++ [nl; cr])) n -> line_writable st (SLN n)
| LW_deprecated t : In t [T "G90*"; T "G91*"] -> line_writable st (SDep t)
| LW_offset a b : five_places a -> five_places b -> line_writable st (SOF (Some a) (Some b))
| LW_scale : line_writable st (SSF (Some 1) (Some 1)).

(** The number format is announced before the first coordinate. *)
Fixpoint format_before_coords (l : list stmt) : Prop :=
  match l with
  | [] => True
  | SFS _ _ _ :: _ => True
  | SCoord _ _ _ _ _ _ :: _ => False
  | _ :: l' => format_before_coords l'
  end.

(** File names that can stand in an include statement. *)
Definition file_name (n : text) : Prop := Forall (fun x => ~ In x (T "*%" ++ [nl; cr])) n.

(** [depicts fs st d t l]: [t] is the text of a file whose inclusions nest at most [d] levels deep and
    whose statements, with every inclusion replaced by the statements of the named file, are [l]. *)
Inductive depicts (fs : filesys) (st : pset) : nat -> text -> list stmt -> Prop :=
| D_end d : depicts fs st d [] []
| D_stmt d s t r l : line_writable st s -> to_gerber st s = Ok t -> depicts fs st d r l ->
    depicts fs st d (t ++ nl :: r) (s :: l)
| D_include d name t r l l' : file_name name -> fs name = Ok t -> depicts fs st d t l ->
    depicts fs st (Datatypes.S d) r l' ->
    depicts fs st (Datatypes.S d) (T "%IF" ++ name ++ T "*%" ++ nl :: r) (l ++ l').

(** Finite runs of the statement loop over one line, without any bound on the iterations. *)
Inductive runs (inc : text -> pset -> res (list stmt * pset)) : pset -> text -> res outcome -> Prop :=
| R_stop st line : parse_step inc st line = None -> runs inc st line (Ok ([], st, line))
| R_error st line e : parse_step inc st line = Some (Err e) -> runs inc st line (Err e)
| R_go_error st line l st' r e : parse_step inc st line = Some (Ok (l, st', r)) -> runs inc st' r (Err e) ->
    runs inc st line (Err e)
| R_go st line l st' r l2 st2 r2 : parse_step inc st line = Some (Ok (l, st', r)) -> runs inc st' r (Ok (l2, st2, r2)) ->
    runs inc st line (Ok (l ++ l2, st2, r2)).

(** No file can be included. *)
Definition no_files : filesys := fun _ => Err IOError.

(** A family of files every one of which, after some statements, includes a file of the family. *)
Definition includes_forever (fs : filesys) (F : text -> Prop) : Prop :=
  forall n, F n -> exists st l pre n' r,
    announceable st /\ Forall (line_writable st) l /\ format_before_coords l /\ write_file st l = Ok pre /\
    file_name n' /\ F n' /\ fs n = Ok (pre ++ T "%IF" ++ n' ++ T "*%" ++ nl :: r).
