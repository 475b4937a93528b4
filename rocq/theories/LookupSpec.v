(** Layers of one sort. *)
From Verif Require Import PyBase LookupModel.
Import ListNotations.
Open Scope list_scope.

Definition internal (x : layer) : Prop := order x <> None.
(** Both internal, or neither *)
Definition same_sort (a b : layer) : Prop := internal a <-> internal b.
(** The same object has the same attributes. *)
Definition one_object (l : list layer) : Prop := forall a b, In a l -> In b l -> which a = which b -> a = b.
