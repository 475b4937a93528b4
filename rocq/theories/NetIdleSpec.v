(** Lines of netlists that are not records. *)
From Verif Require Import PyBase QcLib NumModel IpcModel IpcSpec.
Import ListNotations.
Open Scope list_scope.

Definition begins (w s : text) : Prop := exists b, s = w ++ b.
(** Blank lines, comments, parameters which are neither the units nor the name of a net, and lines of unknown kind *)
Inductive aside : text -> Prop :=
| aside_blank : aside []
| aside_comment r : aside (T "C" ++ r)
| aside_parameter n ws : a_word n -> n <> T "UNITS" -> ~ variable n -> Forall a_word ws -> aside (parameter_line n (spaced ws))
| aside_unknown t : (forall w, In w [T "C"; T "P"; T "9"; T "0"; T "317"; T "327"; T "367"; T "378"; T "379"; T "389"] -> ~ begins w t) -> aside t.
(** The next line, if there is one, does not continue the line before it. *)
Definition no_continuation (b : list text) : Prop := match b with l :: _ => ~ begins (T "0") l | [] => True end.
(** Statements other than comments and parameters *)
Definition is_record (s : statement) : bool := match s with IComment _ | IParameter _ _ => false | _ => true end.
(** Netlists with the same records, settings and test points *)
Definition same_records (n n' : netlist) : Prop :=
  n_set n' = n_set n /\ n_prims n' = n_prims n /\ filter is_record (n_stmts n') = filter is_record (n_stmts n).
