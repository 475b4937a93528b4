(** The end statements of the three kinds of files: C169. *)
From Verif Require Import PyBase QcLib NumModel MacroModel GerberText GerberTextSpec GerberEval GerberEvalSpec EndSpec EndProofs.
From Verif Require ExcellonModel ExcellonFile IdleSpec ToolModel IpcModel IpcSpec NetIdleSpec PropGerberEval.
From Coq Require Import Lia.
Import ListNotations.
Open Scope list_scope.

(** ** C169 *)
(** A Gerber end statement does nothing: the statements after it are drawn as if it were not there, with the same error if they have one. *)
Theorem C169_gerber_partial : forall fc a b, rmap fst (evaluate_all fc g_init (a ++ SEof :: b)) = rmap fst (evaluate_all fc g_init (a ++ b)).
Proof. exact gerber_end. Qed.
Print Assumptions C169_gerber_partial.
(** A line M30 in a drill file adds one statement and nothing else, unless the line before is a G00 or G01 without coordinates; what follows is read as without it. *)
Theorem C169_drill_partial : forall holesize se ext a b f0, ~ IdleSpec.pending a -> ExcellonModel.parse_raw holesize se ext a = Ok f0 ->
  match ExcellonModel.parse_raw holesize se ext (a ++ nl :: b) with
  | Ok f => exists f', ExcellonModel.parse_raw holesize se ext (a ++ nl :: T "M30" ++ nl :: b) = Ok f' /\ IdleSpec.one_more (ExcellonModel.EEnd None None) f f'
  | Err e => ExcellonModel.parse_raw holesize se ext (a ++ nl :: T "M30" ++ nl :: b) = Err e
  end.
Proof. exact drill_end. Qed.
Print Assumptions C169_drill_partial.
(** A line 999 in a netlist adds one statement and nothing else, unless the next line continues a record. *)
Theorem C169_netlist_partial : forall a b, Forall IpcSpec.one_line (a ++ b) -> NetIdleSpec.no_continuation b ->
  match IpcModel.parse_raw (IpcSpec.file_of (a ++ b)) with
  | Ok n => exists n', IpcModel.parse_raw (IpcSpec.file_of (a ++ T "999" :: b)) = Ok n' /\ one_more_end n n'
  | Err e => IpcModel.parse_raw (IpcSpec.file_of (a ++ T "999" :: b)) = Err e
  end.
Proof. exact netlist_end. Qed.
Print Assumptions C169_netlist_partial.

(** So no file ends at its end statement.  A flash after M02 is drawn. *)
Definition flash1 : text := T "%FSLAX24Y24*%" ++ nl :: T "%MOIN*%" ++ nl :: T "%ADD10C,0.1*%" ++ nl :: T "D10*" ++ nl :: T "X010000Y010000D03*" ++ nl :: T "M02*" ++ [nl].
Definition flash2 : text := T "X020000Y020000D03*" ++ [nl].
Definition drawn (t : text) : option nat :=
  match parse_text no_files t with Ok (l, _) => match evaluate_all PropGerberEval.no_centre g_init l with Ok (st, _) => Some (List.length (shown st)) | Err _ => None end | Err _ => None end.
Theorem C169_gerber_refuted : drawn flash1 = Some 1%nat /\ drawn (flash1 ++ flash2) = Some 2%nat.
Proof. split; vm_compute; reflexivity. Qed.
Print Assumptions C169_gerber_refuted.
(** A hole after M30 is drilled. *)
Definition drill1 : text := T "M48" ++ nl :: T "INCH,LZ" ++ nl :: T "T1C.1" ++ nl :: T "%" ++ nl :: T "T1" ++ nl :: T "X01Y02".
Definition drilled (r : res ExcellonModel.xfile) : option nat := match r with Ok f => Some (List.length (ExcellonModel.xf_hits f)) | Err _ => None end.
Theorem C169_drill_refuted : drilled (ExcellonModel.parse_raw (ToolModel.holesize false) ExcellonModel.x_default [] (drill1 ++ nl :: T "M30")) = Some 1%nat /\
  drilled (ExcellonModel.parse_raw (ToolModel.holesize false) ExcellonModel.x_default [] (drill1 ++ nl :: T "M30" ++ nl :: T "X03Y04")) = Some 2%nat.
Proof. split; vm_compute; reflexivity. Qed.
Print Assumptions C169_drill_refuted.
(** A record after 999 is read, and a continuation after 999 is lost with it. *)
Definition statements (l : list text) : res (list IpcModel.statement) := do n <- IpcModel.parse_raw (IpcSpec.file_of l); Ok (IpcModel.n_stmts n).
Theorem C169_netlist_refuted :
  statements [T "379A B"; T "999"; T "379C D"] = Ok [IpcModel.IAdjacency (T "A") [T "B"]; IpcModel.IEnd; IpcModel.IAdjacency (T "C") [T "D"]] /\
  statements [T "379A B"; T "999"; T "000 C"] = Ok [IpcModel.IAdjacency (T "A") [T "B"]; IpcModel.IEnd].
Proof. split; vm_compute; reflexivity. Qed.
Print Assumptions C169_netlist_refuted.

(** The hypotheses hold of the files above. *)
Example C169_ex : ~ IdleSpec.pending drill1 /\ (exists f, ExcellonModel.parse_raw (ToolModel.holesize false) ExcellonModel.x_default [] drill1 = Ok f) /\
  Forall IpcSpec.one_line ([T "379A B"] ++ [T "379C D"]) /\ NetIdleSpec.no_continuation [T "379C D"] /\
  statements ([T "379A B"] ++ [T "379C D"]) = Ok [IpcModel.IAdjacency (T "A") [T "B"]; IpcModel.IAdjacency (T "C") [T "D"]].
Proof.
  split.
  { intros (p & l & w & r & E & _ & _ & _ & R & W). apply (f_equal (@rev ascii)) in E. rewrite !rev_app_distr in E. cbn in E.
    destruct (rev r) as [|x r'] eqn:Er; [destruct W as [ -> | -> ]; cbn in E; discriminate|]. cbn in E. injection E as X _. assert (Z : In x r) by (apply in_rev; rewrite Er; now left).
    unfold IdleSpec.spaces in R. rewrite Forall_forall in R. apply R in Z. rewrite <- X in Z. discriminate. }
  split; [eexists; vm_compute; reflexivity|]. split; [repeat (constructor; [unfold IpcSpec.one_line; cbn; repeat (constructor; [reflexivity|]); constructor|]); constructor|].
  split; [intros (b & E); discriminate|vm_compute; reflexivity].
Qed.
