(** Model of the methods __repr__ of gerber/ipc356.py. *)
From Verif Require Import PyBase QcLib IpcModel.
Import ListNotations.
Open Scope list_scope.

(** 283-285: the names of the feature types *)
Definition feature_name (f : feature) : text :=
  match f with
  | ThroughHole => T "through-hole" | Smt => T "smt" | ToolingFeature => T "tooling-feature"
  | ToolingHole => T "tooling-hole" | NonPlatedToolingHole => T "non-plated-tooling-hole"
  end.
(** repr(record) *)
Definition ipc_repr (s : statement) : text :=
  match s with
  | IComment t => T "<IPC-D-356 Comment: " ++ t ++ T ">"                                            (* 253-254 *)
  | IParameter p v => T "<IPC-D-356 Parameter: " ++ p ++ T "=" ++ v ++ T ">"                        (* 272-273 *)
  | ITest r => T "<IPC-D-356 " ++ tr_net r ++ T " Test Record: " ++ feature_name (tr_feature r) ++ T ">"   (* 368-370 *)
  | IOutline o => T "<IPC-D-356 " ++ ol_type o ++ T " Outline Definition>"                          (* 394-395 *)
  | IConductor c => T "<IPC-D-356 " ++ cd_net c ++ T " Conductor Record>"                           (* 443-444 *)
  | IAdjacency n _ => T "<IPC-D-356 " ++ n ++ T " Adjacency Record>"                                (* 461-462 *)
  | IEnd => T "<IPC-D-356 EOF>"                                                                     (* 473-474 *)
  end.
