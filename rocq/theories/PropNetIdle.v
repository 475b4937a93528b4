(** Lines of netlists that are not records: C168. *)
From Coq Require Import Lia.
From Verif Require Import PyBase QcLib NumModel IpcModel IpcSpec IpcProofs NetFileSpec NetIdleSpec NetIdleProofs.
Import ListNotations.
Open Scope list_scope.

(** ** C168 *)
(** A blank line, a comment, a parameter that is neither the units nor a net name or a line of unknown kind may be inserted anywhere,
    unless the next line continues a record: the records, the settings and the test points are the same, and so is the error if there is one. *)
Theorem C168_records_partial : forall a t b, Forall one_line (a ++ t :: b) -> aside t -> no_continuation b ->
  match parse_raw (file_of (a ++ b)) with
  | Ok n => exists n', parse_raw (file_of (a ++ t :: b)) = Ok n' /\ same_records n n'
  | Err e => parse_raw (file_of (a ++ t :: b)) = Err e
  end.
Proof. exact aside_file. Qed.
Print Assumptions C168_records_partial.
(** The nets, components, vias and the rendered points are then the same. *)
Theorem C168_lists : forall n n', same_records n n' ->
  nets (n_stmts n') = nets (n_stmts n) /\ components (n_stmts n') = components (n_stmts n) /\ vias (n_stmts n') = vias (n_stmts n) /\ forall l, render l n' = render l n.
Proof. exact same_lists. Qed.
Print Assumptions C168_lists.
(** Between a record and its continuation a comment takes the rest of the record: a net has no neighbours left. *)
Definition adjacency : list text := [T "379A B"].
Definition rest : list text := [T "000 C"].
Theorem C168_refuted : aside (T "C  note") /\ Forall one_line (adjacency ++ T "C  note" :: rest) /\
  (do n <- parse_raw (file_of (adjacency ++ rest)); Ok (n_stmts n)) = Ok [IAdjacency (T "A") [T "B"; T "C"]] /\
  (do n <- parse_raw (file_of (adjacency ++ T "C  note" :: rest)); Ok (n_stmts n)) = Ok [IAdjacency (T "A") [T "B"]; IComment (T "note C")].
Proof.
  split; [exact (aside_comment (T "  note"))|]. split; [repeat (constructor; [unfold one_line; cbn; repeat (constructor; [reflexivity|]); constructor|]); constructor|]. split; vm_compute; reflexivity.
Qed.
Print Assumptions C168_refuted.

(** A parameter and an unknown line in a small netlist *)
Definition before : list text := [T "P  UNITS CUST 1"; T "379A B"].
Definition after : list text := [T "379B C"; T "999"].
Example C168_ex : aside (parameter_line (T "JOB") (spaced [T "board"; T "7"])) /\ aside (T "347 tooling hole") /\ no_continuation after /\
  (do n <- parse_raw (file_of (before ++ T "347 tooling hole" :: after)); Ok (n_set n, n_stmts n)) =
    Ok (mkIS true false, [IParameter (T "UNITS") (T "CUST 1"); IAdjacency (T "A") [T "B"]; IAdjacency (T "B") [T "C"]; IEnd]) /\
  (do n <- parse_raw (file_of (before ++ parameter_line (T "JOB") (spaced [T "board"; T "7"]) :: after)); Ok (n_set n, n_stmts n)) =
    Ok (mkIS true false, [IParameter (T "UNITS") (T "CUST 1"); IAdjacency (T "A") [T "B"]; IParameter (T "JOB") (T "board 7"); IAdjacency (T "B") [T "C"]; IEnd]).
Proof.
  split. { apply aside_parameter; [split; [discriminate|repeat (constructor; [reflexivity|]); constructor]|discriminate| |].
    - intros (d & E & _). discriminate.
    - repeat (constructor; [split; [discriminate|repeat (constructor; [reflexivity|]); constructor]|]). constructor. }
  split. { apply aside_unknown. intros w I (b & E). cbn in I. repeat (destruct I as [<-|I]; [discriminate|]). destruct I. }
  split. { intros (b & E). discriminate. }
  split; vm_compute; reflexivity.
Qed.
