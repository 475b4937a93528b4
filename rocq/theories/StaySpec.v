(** What stays of a drill file when more lines follow. *)
From Verif Require Import PyBase.
Import ListNotations.
Open Scope list_scope.

(** All of the first list, in its order, among the second *)
Inductive within {A} : list A -> list A -> Prop :=
| within_nil : within [] []
| within_both x l l' : within l l' -> within (x :: l) (x :: l')
| within_more x l l' : within l l' -> within l (x :: l').
