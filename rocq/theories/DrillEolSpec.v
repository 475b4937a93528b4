(** Lines with blanks around them. *)
From Verif Require Import PyBase.
Import ListNotations.
Open Scope list_scope.

(** Tabulators, feeds, carriage returns, separators and spaces: every white space but the line feed *)
Definition blanks (t : text) : Prop := Forall (fun c => In c (map ascii_of_nat [9; 11; 12; 13; 28; 29; 30; 31; 32])) t.
(** A line with what stands before and after it *)
Record row := mkRow { before : text; middle : text; after : text }.
Definition good_row (r : row) : Prop := blanks (before r) /\ ~ In (ascii_of_nat 10) (middle r) /\ blanks (after r).
Definition row_text (r : row) : text := before r ++ middle r ++ after r.
(** The text of lines, each with a line end *)
Definition lines_text (e : text) (ls : list text) : text := List.concat (map (fun l => l ++ e) ls).
