(** Lines with their ends. *)
From Verif Require Import PyBase IpcSpec.
Import ListNotations.
Open Scope list_scope.

(** The ends of lines: line feed, carriage return, or both *)
Definition lf : text := [ascii_of_nat 10].
Definition crlf : text := [ascii_of_nat 13; ascii_of_nat 10].
Definition ret : text := [ascii_of_nat 13].
Definition an_end (e : text) : Prop := e = lf \/ e = crlf \/ e = ret.
(** The text of lines with these ends *)
Definition text_with (ls : list (text * text)) : text := List.concat (map (fun l => fst l ++ snd l) ls).
(** No carriage return that ends a line is followed by a line feed that ends an empty line: the two would be one end. *)
Fixpoint clear_ends (ls : list (text * text)) : Prop :=
  match ls with
  | (_, e) :: ((l', e') :: _) as r => (e = ret -> l' = [] -> e' <> lf) /\ clear_ends r
  | _ => True
  end.
