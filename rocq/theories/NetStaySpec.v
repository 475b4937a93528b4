(** Netlists that go on. *)
From Verif Require Import PyBase QcLib NumModel IpcModel.
Import ListNotations.
Open Scope list_scope.

(** [m] begins with [l]. *)
Definition extends {A} (l m : list A) : Prop := exists k, m = l ++ k.
