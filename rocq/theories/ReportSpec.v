(** What a drill report says, independently of how it is made. *)
From Verif Require Import PyBase QcLib NumModel NumSpec GerberText ExcellonModel ExcellonSpec ToolSpec.
Open Scope Qc_scope.

(** The pieces of a text between the occurrences of a character; the lines of a text; the words of a line. *)
Fixpoint pieces (c : ascii) (s : text) : list text :=
  match s with
  | [] => [[]]
  | x :: r => if ceq x c then [] :: pieces c r
              else match pieces c r with p :: ps => (x :: p) :: ps | [] => [[x]] end
  end.
Definition lines_in (s : text) : list text := pieces nl s.
Definition words_in (s : text) : list text := filter (fun w => match w with [] => false | _ => true end) (pieces " "%char s).

(** The text of v rounded to d decimals. *)
Definition rounded (d : nat) (v : Qc) (t : text) : Prop :=
  exists (sign : bool) a n, t = (if sign then T "-" else []) ++ a /\ decimal a n /\
    (sign = true <-> v < 0) /\ (exists k, n = grid k d) /\ qabs (qabs v - n) <= half_ulp d.
Definition unit_name (u : unit_) : text := match u with Inch => T "in." | Metric => T "mm" end.

(** The line of a report for the tool at l of a file. *)
Definition row_for (add : Qc -> Qc -> Qc) (dist : point -> point -> Qc) (f : xfile) (l : tloc) (line : text) : Prop :=
  exists t d num size hits len,
    nth_error (xf_store f) l = Some t /\ t_diam t = Some d /\
    words_in line = [T "T" ++ num; size; hits; len ++ unit_name (xs_units (xf_set f))] /\
    number num (t_num t) /\ number hits (Z.of_nat (t_hits t)) /\
    rounded (snd (xs_format (xf_set f))) d size /\
    rounded 6 (polyline add dist 0 (0, 0) (stops (xf_store f) (t_num t) (xf_hits f))) len.

(** Every hit is a hole made with a tool of the file. *)
Definition only_holes (f : xfile) : Prop :=
  forall h, In h (xf_hits f) -> tool_of (xf_store f) h <> None /\ match h with Hit _ _ => True | _ => False end.
(** The tool at l is in the file, has a diameter and is used. *)
Definition reportable (f : xfile) (l : tloc) : Prop :=
  exists t d, nth_error (xf_store f) l = Some t /\ t_diam t = Some d /\ stops (xf_store f) (t_num t) (xf_hits f) <> [].
