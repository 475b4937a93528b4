(** Properties of drill reports. *)
From Verif Require Import PyBase QcLib NumModel NumSpec GerberText ExcellonModel ExcellonFile ExcellonSpec ToolSpec ReportModel ReportSpec ReportProofs PropExcellon.
Open Scope list_scope.
Open Scope Qc_scope.

(** Reports of programs; the distance of the examples is the sum of the differences of the coordinates. *)
Definition blocks (p q : point) : Qc := qcmax (fst p - fst q) (fst q - fst p) + qcmax (snd p - snd q) (snd q - snd p).
Definition program_report (data : text) : res text :=
  do f <- parse_raw no_comment_tool x_default [] data; report Qcplus blocks None f.
Definition program_lines (l : list string) : text := file_text [nl] (map T l).

(** ** C119 *)
(** Files of drill holes all of whose tools have a diameter and are used have one line for every tool, in the
    order of the tool table: number, diameter, counter and path length. *)
Theorem C119_rows_partial : forall add dist name f, only_holes f ->
  (forall e, In e (xf_tools f) -> reportable f (snd e)) ->
  (forall e t, In e (xf_tools f) -> nth_error (xf_store f) (snd e) = Some t -> (0 <= t_num t)%Z) ->
  exists text top rows, report add dist name f = Ok text /\ lines_in text = top ++ rows ++ [[]] /\
    Forall2 (fun e line => row_for add dist f (snd e) line) (xf_tools f) rows.
Proof. exact C119_lemma. Qed.
Print Assumptions C119_rows_partial.
(** No other file with tools has a report. *)
Theorem C119_exactly_partial : forall add dist name f, xf_tools f <> [] ->
  (forall e t, In e (xf_tools f) -> nth_error (xf_store f) (snd e) = Some t -> (0 <= t_num t)%Z) ->
  ((exists text, report add dist name f = Ok text) <-> only_holes f /\ forall e, In e (xf_tools f) -> reportable f (snd e)).
Proof. exact C119_iff_lemma. Qed.
Print Assumptions C119_exactly_partial.
Definition three_holes : text := program_lines ["M48"; "INCH,LZ"; "T1C0.024"; "T12C.125"; "%"; "T1"; "X01Y02"; "T12"; "X03"; "T1"; "Y-005"; "M30"]%string.
Example C119_ex : exists f, parse_raw no_comment_tool x_default [] three_holes = Ok f /\ List.length (xf_tools f) = 2%nat /\
  only_holes f /\ (forall e, In e (xf_tools f) -> reportable f (snd e)) /\
  (forall e t, In e (xf_tools f) -> nth_error (xf_store f) (snd e) = Some t -> (0 <= t_num t)%Z).
Proof.
  eexists. split; [vm_compute; reflexivity|]. split; [reflexivity|]. split; [|split].
  - intros h I. cbn in I. destruct I as [<-|[<-|[<-|[]]]]; (split; [discriminate|exact Logic.I]).
  - intros e I. cbn in I. destruct I as [<-|[<-|[]]]; (eexists _, _; split; [reflexivity|split; [reflexivity|discriminate]]).
  - intros e t I E. cbn in I. destruct I as [<-|[<-|[]]]; cbn in E; injection E as <-; cbn; discriminate.
Qed.
Example C119_ex_text : match program_report three_holes with
  | Ok t => skipn 13 (lines_in t) = map T ["  T01      0.0240       2     7.500000in."; "  T12      0.1250       1     5.000000in."; ""]%string
  | Err _ => False
  end.
Proof. vm_compute. reflexivity. Qed.
(** The full statement is false: a tool that is defined and never used, or one slot, and there is no report. *)
Theorem C119_unused_refuted :
  program_report (program_lines ["M48"; "INCH,LZ"; "T1C0.024"; "T12C.125"; "%"; "T1"; "X01Y02"; "M30"]%string) = Err TypeError.
Proof. vm_compute. reflexivity. Qed.
Print Assumptions C119_unused_refuted.
Theorem C119_slot_refuted :
  program_report (program_lines ["M48"; "INCH,LZ"; "T1C0.024"; "%"; "T1"; "X01Y02"; "X01Y04G85X03Y01"; "M30"]%string) = Err AttributeError.
Proof. vm_compute. reflexivity. Qed.
Print Assumptions C119_slot_refuted.

(** ** C120 *)
Theorem C120_labels_partial : forall add dist name f text,
  xs_notation (xf_set f) = Absolute -> xs_units (xf_set f) = Inch -> report add dist name f = Ok text ->
  (exists l, In l (lines_in text) /\ words_in l = map T ["Data"; "Mode"; "Absolute"]%string) /\
  (exists l, In l (lines_in text) /\ words_in l = map T ["Units"; "Inches"]%string).
Proof. exact C120_lemma. Qed.
Print Assumptions C120_labels_partial.
Example C120_ex : exists f, parse_raw no_comment_tool x_default [] three_holes = Ok f /\ xs_notation (xf_set f) = Absolute /\ xs_units (xf_set f) = Inch /\
  match report Qcplus blocks (Some (T "a.drl")) f with Ok _ => True | Err _ => False end.
Proof. eexists. split; [vm_compute; reflexivity|]. split; [reflexivity|]. split; [reflexivity|]. vm_compute. exact Logic.I. Qed.
(** The full statement is false: the report of a metric file has no line for the units, and that of an
    incremental file no line for the data mode. *)
Definition starts (w : string) (l : text) : bool := match words_in l with x :: _ => teq x (T w) | [] => false end.
Theorem C120_metric_refuted :
  match program_report (program_lines ["M48"; "METRIC,LZ"; "T1C0.6"; "%"; "T1"; "X01Y02"; "M30"]%string) with
  | Ok t => existsb (starts "Units") (lines_in t) = false /\ existsb (starts "Millimeters") (lines_in t) = true
  | Err _ => False
  end.
Proof. vm_compute. split; reflexivity. Qed.
Print Assumptions C120_metric_refuted.
Theorem C120_incremental_refuted :
  match program_report (program_lines ["M48"; "INCH,LZ"; "ICI,ON"; "T1C0.024"; "%"; "T1"; "X01Y02"; "M30"]%string) with
  | Ok t => existsb (starts "Data") (lines_in t) = false /\
      exists l, In l (lines_in t) /\ words_in l = map T ["Incremental"; "Units"; "Inches"]%string
  | Err _ => False
  end.
Proof.
  vm_compute. split; [reflexivity|]. exists (T "Incremental  Units             Inches"). split; [|reflexivity]. vm_compute. auto 10.
Qed.
Print Assumptions C120_incremental_refuted.
