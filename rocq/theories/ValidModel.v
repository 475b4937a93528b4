(** Model of validate_coordinates (gerber/utils.py:233-240). *)
From Verif Require Import PyBase QcLib.
Import ListNotations.
Open Scope list_scope.

(** Python values, as far as the function tells them apart: [PSeq] is a tuple or a list.
    Simplification: [POther] has no length (sets, dictionaries and the like are left out);
    not-a-number and the infinities are left out; the texts of the exceptions are not kept. *)
Inductive pyval :=
| PNone | PBool (b : bool) | PInt (n : Z) | PFloat (q : Qc) | PText (t : text) | PSeq (l : list pyval) | POther.

(** len(v): TypeError for a value that has no length *)
Definition py_len (v : pyval) : res nat :=
  match v with PText t => Ok (List.length t) | PSeq l => Ok (List.length l) | _ => Err TypeError end.
(** The elements a for statement goes through; those of a text are texts *)
Definition elements (v : pyval) : list pyval :=
  match v with PText t => map (fun c => PText [c]) t | PSeq l => l | _ => [] end.
(** isinstance(v, int) or isinstance(v, float): True and False are integers (239) *)
Definition is_number (v : pyval) : bool := match v with PBool _ | PInt _ | PFloat _ => true | _ => false end.
(** 238-240 *)
Fixpoint check_each (l : list pyval) : res unit :=
  match l with [] => Ok tt | v :: l' => if is_number v then check_each l' else Err TypeError end.
(** 233-240 *)
Definition validate_coordinates (position : pyval) : res unit :=
  match position with
  | PNone => Ok tt
  | _ => do n <- py_len position; if negb (n =? 2)%nat then Err TypeError else check_each (elements position)
  end.

(** gerber/am_statements.py:404-406 AMOutlinePrimitive.__init__: the first point and then each of the others *)
Definition validate_points (start : pyval) (points : list pyval) : res unit :=
  do _ <- validate_coordinates start;
  fold_left (fun r p => do _ <- r; validate_coordinates p) points (Ok tt).
