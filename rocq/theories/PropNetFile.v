(** Whole IPC-D-356 netlists. *)
From Coq Require Import Lia.
From Verif Require Import PyBase QcLib NumModel IpcModel IpcSpec IpcProofs NetFileSpec NetFileProofs.
Open Scope list_scope.

(** ** C163 *)
(** The claim, for a single record: test records of every feature code are read. *)
Definition every_record_claim : Prop := forall wid c f, feature_of (co_feature c) f -> fits_columns wid c -> dash_found wid c -> one_line (record_line wid c) ->
  exists nl0, parse_raw (file_of [record_line wid c]) = Ok nl0 /\ n_stmts nl0 = [ITest (the_record (mkIS false false) f c)].
(** It is false for tooling features and holes (codes 3 and 4), which are left out.  For the other records:
    every record of a netlist becomes a statement, in the order of the file, in the units and with the net names stated above it. *)
Theorem C163_netlist_partial : forall ls ss, Forall one_line ls -> says (mkIS false false) (fun n => n) ls ss ->
  exists nl0, parse_raw (file_of ls) = Ok nl0 /\ n_stmts nl0 = ss.
Proof. exact file_says. Qed.
Print Assumptions C163_netlist_partial.
(** The same with records broken over several lines, no part of which ends in a blank. *)
Theorem C163_continued_partial : forall rs ss, Forall well_split rs -> Forall tight rs -> says (mkIS false false) (fun n => n) (map whole rs) ss ->
  exists nl0, parse_raw (file_of (flat_map split_lines rs)) = Ok nl0 /\ n_stmts nl0 = ss.
Proof.
  intros rs ss W G H. rewrite (C55_lemma rs W G). apply file_says; [|exact H]. apply Forall_forall. intros l L. apply in_map_iff in L. destruct L as (r & <- & R).
  rewrite Forall_forall in W. destruct (W r R) as (_ & A & B). unfold whole. apply Forall_app. split; [exact A|]. apply Forall_concat. apply Forall_forall. intros t Ht. apply in_map_iff in Ht.
  destruct Ht as (((a & b) & c) & <- & M). rewrite Forall_forall in B. exact (proj2 (proj2 (B _ M))).
Qed.
Print Assumptions C163_continued_partial.

(** A netlist with all kinds of records *)
Definition pad_columns : columns := mkCols "1" (T "NNAME1") (T "U1") "-" (T "1") false None true 1 20000 0 0 0 0 0.
Definition all_kinds : list text :=
  [T "C  a board"; parameter_line (T "UNITS") (spaced [T "CUST"; T "1"]); parameter_line (T "NNAME1") (spaced [T "LONG_NET"]); parameter_line (T "JOB") (spaced [T "board"; T "7"]);
   record_line 6 pad_columns; conductor_line (T "GND") 2 (Some 100, None)%Z [[(Some 0, Some 0); (Some 5, None)]]%Z; T "379LONG_NET GND"; outline_line (T "BOARD_EDGE") [(Some 0, Some 0); (Some 20000, None)]%Z; T "999"].
Ltac word := split; [discriminate|repeat (constructor; [reflexivity|]); constructor].
Ltac words_ := repeat (constructor; [word|]); constructor.
Example C163_ex : Forall one_line all_kinds /\
  says (mkIS false false) (fun n => n) all_kinds
    [IComment (T "a board"); IParameter (T "UNITS") (T "CUST 1"); IParameter (T "NNAME1") (T "LONG_NET"); IParameter (T "JOB") (T "board 7");
     ITest (set_net (T "LONG_NET") (the_record (mkIS true false) ThroughHole pad_columns));
     IConductor (mkConductor (T "GND") 2 (Some (units (mkIS true false) 100), None) [map (in_units (mkIS true false)) [(0, 0); (5, 0)]%Z]);
     IAdjacency (T "LONG_NET") [T "GND"]; IOutline (mkOutline (T "BOARD_EDGE") (map (in_units (mkIS true false)) [(0, 0); (20000, 0)]%Z)); IEnd].
Proof.
  split; [repeat (constructor; [unfold one_line; cbn; repeat (constructor; [reflexivity|]); constructor|]); constructor|].
  apply says_comment; [apply trimmed_dec; reflexivity|]. apply (says_units _ _ [T "CUST"; T "1"] (mkIS true false)); [constructor|].
  apply (says_name _ _ (T "NNAME1") [T "LONG_NET"] (fun m => if teq m (T "NNAME1") then T "LONG_NET" else m)); [exists (T "1"); repeat split; discriminate|words_|reflexivity|intros m D; destruct (teq_spec m (T "NNAME1")); [contradiction|reflexivity]|].
  apply (says_parameter _ _ (T "JOB") [T "board"; T "7"]); [word|discriminate|intros (d & E & _); discriminate E|words_|].
  apply (says_test (mkIS true false) (fun m => if teq m (T "NNAME1") then T "LONG_NET" else m) 6 pad_columns ThroughHole); [reflexivity|now left|left; auto| |split; [cbn; lia|]; left; split; [reflexivity|]; cbn; intuition discriminate|].
  { unfold fits_columns, pad_columns. cbn [co_net co_id co_pin co_hole co_access co_x co_y co_w co_h co_rot co_mask].
    split; [cbn; lia|]. split; [cbn; lia|]. split; [cbn; lia|]. split; [apply trimmed_dec; reflexivity|]. split; [apply trimmed_dec; reflexivity|]. split; [apply trimmed_dec; reflexivity|]. lia. }
  apply (says_conductor (mkIS true false) _ (T "GND") 2 (Some 100, None)%Z [[(Some 0, Some 0); (Some 5, None)]]%Z); [apply trimmed_dec; reflexivity|cbn; lia|lia| |discriminate| |].
  { unfold is_coord. cbn. split; [lia|]. split; [exact I|]. left. discriminate. }
  { constructor; [|constructor]. split; [discriminate|]. repeat (constructor; [unfold is_coord; cbn; split; [lia|]; split; [lia|]; left; discriminate|]). constructor. }
  apply (says_adjacent _ _ (T "LONG_NET") [T "GND"]); [word|words_|].
  apply (says_outline (mkIS true false) _ (T "BOARD_EDGE") [(Some 0, Some 0); (Some 20000, None)]%Z); [right; word|cbn; lia| |].
  { repeat (constructor; [unfold is_coord; cbn; split; [lia|]; split; [lia|]; left; discriminate|]). constructor. }
  apply says_end. constructor.
Qed.

Definition tooling : columns := mkCols "3" (T "GND") (T "U12") "-" (T "14") false None true 1 (-1200) 45000 300 80 90 2.
Theorem C163_tooling_refuted : ~ every_record_claim.
Proof.
  intros H. destruct (H 6%nat tooling ToolingFeature) as (nl0 & E & S).
  - right. right. left. auto.
  - unfold fits_columns, tooling. cbn [co_net co_id co_pin co_hole co_access co_x co_y co_w co_h co_rot co_mask].
    split; [cbn; lia|]. split; [cbn; lia|]. split; [cbn; lia|]. split; [apply trimmed_dec; reflexivity|]. split; [apply trimmed_dec; reflexivity|]. split; [apply trimmed_dec; reflexivity|]. lia.
  - split; [cbn; lia|]. left. split; [reflexivity|]. cbn. intuition discriminate.
  - unfold one_line. cbn. repeat (constructor; [reflexivity|]). constructor.
  - assert (V : match parse_raw (file_of [record_line 6 tooling]) with Ok n => n_stmts n | Err _ => [IEnd] end = []) by (vm_compute; reflexivity).
    rewrite E, S in V. discriminate V.
Qed.
Print Assumptions C163_tooling_refuted.
