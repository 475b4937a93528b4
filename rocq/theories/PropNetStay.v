(** Netlists that go on: C170. *)
From Verif Require Import PyBase QcLib NumModel IpcModel IpcSpec IpcProofs NetIdleSpec NetStaySpec NetStayProofs.
Import ListNotations.
Open Scope list_scope.

(** ** C170 *)
(** Lines added at the end, the first of which is not a continuation, leave the statements and the test points read before as they are, and in their order. *)
Theorem C170_stays_partial : forall a b n n', Forall one_line (a ++ b) -> no_continuation b -> parse_raw (file_of a) = Ok n -> parse_raw (file_of (a ++ b)) = Ok n' ->
  extends (n_stmts n) (n_stmts n') /\ extends (n_prims n) (n_prims n').
Proof. exact netlist_grows. Qed.
Print Assumptions C170_stays_partial.
(** So whatever is rendered, and every via and component, stays. *)
Theorem C170_lists : forall a b n n', Forall one_line (a ++ b) -> no_continuation b -> parse_raw (file_of a) = Ok n -> parse_raw (file_of (a ++ b)) = Ok n' ->
  (forall l, extends (render l n) (render l n')) /\ extends (vias (n_stmts n)) (vias (n_stmts n')) /\ forall c, In c (components (n_stmts n)) -> In c (components (n_stmts n')).
Proof. intros a b n n' F N H H'. destruct (netlist_grows a b n n' F N H H') as [S P]. exact (lists_grow n n' S P). Qed.
Print Assumptions C170_lists.
(** A netlist with an error does not become readable. *)
Theorem C170_error : forall a b e, Forall one_line (a ++ b) -> no_continuation b -> parse_raw (file_of a) = Err e -> exists e', parse_raw (file_of (a ++ b)) = Err e'.
Proof. exact netlist_error. Qed.
Print Assumptions C170_error.
(** A continuation changes the last record. *)
Definition read (l : list text) : res (ipc_settings * list statement) := do n <- parse_raw (file_of l); Ok (n_set n, n_stmts n).
Theorem C170_record_refuted : read [T "379A B"] = Ok (mkIS false false, [IAdjacency (T "A") [T "B"]]) /\
  read [T "379A B"; T "000 C"] = Ok (mkIS false false, [IAdjacency (T "A") [T "B"; T "C"]]).
Proof. split; vm_compute; reflexivity. Qed.
Print Assumptions C170_record_refuted.
(** The units of the netlist do not stay: a later statement of the units is that of the whole netlist. *)
Theorem C170_units_refuted : read [T "P  UNITS CUST 0"; T "379A B"] = Ok (mkIS false false, [IParameter (T "UNITS") (T "CUST 0"); IAdjacency (T "A") [T "B"]]) /\
  read [T "P  UNITS CUST 0"; T "379A B"; T "P  UNITS CUST 1"] =
    Ok (mkIS true false, [IParameter (T "UNITS") (T "CUST 0"); IAdjacency (T "A") [T "B"]; IParameter (T "UNITS") (T "CUST 1")]).
Proof. split; vm_compute; reflexivity. Qed.
Print Assumptions C170_units_refuted.

(** Two vias and a component, read before and after the netlist went on; a shortened record is an error and stays one. *)
Definition via1 : text := T "317GND              VIA         D  24PA00X  14900Y   1450X 396Y 396".
Definition via2 : text := T "317VCC              VIA         D  24PA00X   3850Y   8500X 396Y 396".
Definition part : text := T "327N$3              C1    -+          A01X   9700Y  10402X1575Y 630R270".
Definition seen (l : list text) : res (list (text * Q) * list text * list text) :=
  do n <- parse_raw (file_of l); Ok (map (fun p => (snd (fst p), this (fst (fst (fst p))))) (n_prims n), components (n_stmts n), vias (n_stmts n)).
Example C170_ex : Forall one_line ([via1; part] ++ [via2]) /\ no_continuation [via2] /\
  seen [via1; part] = Ok ([(T "GND", 149 # 100); (T "N$3", 97 # 100)]%Q, [T "C1"], [T "VIA"]) /\
  seen ([via1; part] ++ [via2]) = Ok ([(T "GND", 149 # 100); (T "N$3", 97 # 100); (T "VCC", 77 # 200)]%Q, [T "C1"], [T "VIA"; T "VIA"]) /\
  parse_raw (file_of [via1; T "317GND"]) = Err IndexError /\ parse_raw (file_of ([via1; T "317GND"] ++ [via2])) = Err IndexError.
Proof.
  split; [repeat (constructor; [unfold one_line; cbn; repeat (constructor; [reflexivity|]); constructor|]); constructor|].
  split; [intros (b & E); discriminate|]. repeat (split; [vm_compute; reflexivity|]). vm_compute. reflexivity.
Qed.
