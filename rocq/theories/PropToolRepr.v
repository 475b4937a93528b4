(** C178: descriptions of drill tools. *)
From Verif Require Import PyBase QcLib NumModel NumSpec GerberText FmtModel ReportModel ExcellonModel ExcellonFile ToolReprModel ToolReprSpec ToolReprProofs.
Import ListNotations.
Open Scope list_scope.

(** The description of a tool with a diameter states its number, its unit and its diameter to as many digits as the
    format has decimal places. *)
Theorem C178_describes_partial : forall t x, t_diam t = Some x -> exists d, tool_repr t = Ok d /\ describes t d.
Proof. exact tool_described. Qed.
Print Assumptions C178_describes_partial.
(** A tool without a diameter has none, *)
Theorem C178_describes_refuted : forall t, t_diam t = None -> tool_repr t = Err TypeError.
Proof. intros t E. unfold tool_repr. now rewrite E. Qed.
Print Assumptions C178_describes_refuted.
(** and such tools are read from a header which states no diameter. *)
Definition no_comment_tool : unit_ -> text -> res (option tool) := fun _ _ => Ok None.
Definition bare_tool : text := T "M48" ++ [nl] ++ T "INCH,LZ" ++ [nl] ++ T "T1F20S300" ++ [nl] ++ T "%" ++ [nl] ++ T "M30" ++ [nl].
Theorem C178_read_refuted : exists f t, parse_raw no_comment_tool x_default [] bare_tool = Ok f /\ In t (xf_store f) /\ tool_repr t = Err TypeError.
Proof.
  destruct (parse_raw no_comment_tool x_default [] bare_tool) as [f|e] eqn:E; [|exfalso; vm_compute in E; discriminate E].
  vm_compute in E. injection E as <-. eexists. eexists. split; [reflexivity|]. split; [left; reflexivity|reflexivity].
Qed.
Print Assumptions C178_read_refuted.

Definition metric_set : xset := mkXset Metric (3, 3)%nat ZLead Absolute.
Example C178_ex : tool_repr (plain_tool 7 (Q2Qc (1 # 2)) metric_set) = Ok (T "<ExcellonTool 07: 0.5mm dia.>") /\
  tool_repr (plain_tool 12 (Q2Qc (12345 # 10000)) metric_set) = Ok (T "<ExcellonTool 12: 1.23mm dia.>") /\
  tool_repr (plain_tool 1 (Q2Qc 1) metric_set) = Ok (T "<ExcellonTool 01:   1mm dia.>").
Proof. repeat split; vm_compute; reflexivity. Qed.
