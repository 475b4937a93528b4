(** Specification vocabulary for the image parameters: decimal numbers as text, what the parameters
    of an image ask for. *)
From Verif Require Import PyBase QcLib NumModel NumSpec GerberText GerberEval GerberEvalSpec GerberConvSpec.
Open Scope Qc_scope.

(** [t] writes the number [v]: an optional sign, digits, and optionally a point and digits. *)
Definition fraction_text (b : text) : text := match b with [] => [] | _ => T "." ++ b end.
Inductive decimal_text : text -> Qc -> Prop :=
| DT_plain a b : digit_string a -> a <> [] -> digit_string b -> decimal_text (a ++ fraction_text b) (grid (int_of (a ++ b)) (List.length b))
| DT_plus a b : digit_string a -> a <> [] -> digit_string b -> decimal_text (T "+" ++ a ++ fraction_text b) (grid (int_of (a ++ b)) (List.length b))
| DT_minus a b : digit_string a -> a <> [] -> digit_string b -> decimal_text (T "-" ++ a ++ fraction_text b) (- grid (int_of (a ++ b)) (List.length b)).

(** The parameters that place, scale, turn and mirror the image. *)
Definition image_parameter (s : stmt) : bool :=
  match s with SOF _ _ | SSF _ _ | SMI _ _ | SIR _ | SAS _ => true | _ => false end.
(** Names of the image and of its layers. *)
Definition names_something (s : stmt) : bool := match s with SIN _ | SLN _ => true | _ => false end.

(** Where a parameter puts a point of the image. *)
Definition puts (s : stmt) (p : point) : point :=
  match s with
  | SOF a b => (fst p + dflt_q a, snd p + dflt_q b)
  | SSF a b => (fst p * match a with Some f => f | None => 1 end, snd p * match b with Some f => f | None => 1 end)
  | SMI a b => ((if match a with Some 1%Z => true | _ => false end then - fst p else fst p),
                (if match b with Some 1%Z => true | _ => false end then - snd p else snd p))
  | SIR 90 => (- snd p, fst p)
  | SIR 180 => (- fst p, - snd p)
  | SIR 270 => (snd p, - fst p)
  | SAS m => if teq m (T "AYBX") then (snd p, fst p) else p
  | _ => p
  end.
(** The place where a mark is flashed. *)
Definition flashed_at (m : mark) : option point := match m with Stamp o => o_pos o | _ => None end.
