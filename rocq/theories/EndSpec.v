(** A netlist with one more end statement. *)
From Verif Require Import PyBase QcLib NumModel IpcModel.
Import ListNotations.
Open Scope list_scope.

(** The same settings, test points and statements, but for one end statement more *)
Definition one_more_end (n n' : netlist) : Prop :=
  n_set n' = n_set n /\ n_prims n' = n_prims n /\ exists u v, n_stmts n = u ++ v /\ n_stmts n' = u ++ IEnd :: v.
