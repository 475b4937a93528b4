(** C181: descriptions of netlist records. *)
From Verif Require Import PyBase QcLib IpcModel IpcReprModel IpcReprSpec IpcReprProofs.
Import ListNotations.
Open Scope list_scope.

(** Two records of one kind have the same description exactly when they agree on what it shows. *)
Theorem C181_tells : forall s s', same_kind s s' -> plain_name s -> plain_name s' ->
  (ipc_repr s = ipc_repr s' <-> ipc_agree s s').
Proof. exact repr_tells. Qed.
Print Assumptions C181_tells.

(** Descriptions of two parameters; an equals sign in a name, and records of two kinds, can make descriptions the same. *)
Example C181_ex :
  ipc_repr (IParameter (T "UNITS") (T "CUST 0")) = T "<IPC-D-356 Parameter: UNITS=CUST 0>" /\
  plain_name (IParameter (T "UNITS") (T "CUST 0")) /\
  ipc_repr (IParameter (T "UNITS") (T "CUST 0")) <> ipc_repr (IParameter (T "UNITS") (T "CUST 1")) /\
  ipc_repr (IParameter (T "A=B") (T "C")) = ipc_repr (IParameter (T "A") (T "B=C")) /\
  ipc_repr (IComment (T "Adjacency Record")) = ipc_repr (IAdjacency (T "Comment:") []).
Proof. split; [reflexivity|]. split; [cbn; intuition discriminate|]. split; [discriminate|]. split; reflexivity. Qed.
