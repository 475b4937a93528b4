(** Properties of tools that drill alike, and of linked tools. *)
From Verif Require Import PyBase QcLib NumModel NumSpec FmtModel GerberText ExcellonModel ExcellonSpec ExcellonFile ExcellonRun ToolSpec ToolEqModel ToolEqSpec ToolEqProofs PropExcellon PropToolDef.
From Coq Require Import Lia.
Import ListNotations.
Open Scope list_scope.
Open Scope Qc_scope.

(** ** C156 *)
(** Two tools of drill files are equivalent if and only if all their parameters, their plating and their units are the same, whatever their numbers,
    numbers of hits and formats. *)
Theorem C156_equivalent : forall t t', exists r, equivalent (of_file t) (of_file t') = Ok r /\ (r = true <-> alike t t').
Proof. exact equivalent_iff. Qed.
Print Assumptions C156_equivalent.
(** This is an equivalence. *)
Theorem C156_relation : forall t t' t'', equivalent (of_file t) (of_file t) = Ok true /\
  (equivalent (of_file t) (of_file t') = Ok true -> equivalent (of_file t') (of_file t) = Ok true) /\
  (equivalent (of_file t) (of_file t') = Ok true -> equivalent (of_file t') (of_file t'') = Ok true -> equivalent (of_file t) (of_file t'') = Ok true).
Proof. intros t t' t''. rewrite !equivalent_true. unfold alike. intuition congruence. Qed.
Print Assumptions C156_relation.
(** Definitions which give the same parameters, in any order, notation and format, are equivalent. *)
Theorem C156_read : forall i d z i' d' z' se se' p x x' line line', readable i d -> readable i' d' -> defines i d z x line -> defines i' d' z' x' line' ->
  xs_format se = (i, d) -> xs_zeros se = z -> xs_format se' = (i', d') -> xs_zeros se' = z' -> xs_units se = xs_units se' ->
  (forall c, In c tool_letters -> param c (d_params x) = param c (d_params x')) ->
  exists t t', read_tool se p line = Ok t /\ read_tool se' p line' = Ok t' /\ equivalent (of_file t) (of_file t') = Ok true.
Proof.
  intros i d z i' d' z' se se' p x x' line line' R R' D D' F Z F' Z' U P. destruct (read_alike i d z i' d' z' se se' p x x' line line' R R' D D' F Z F' Z' U P) as (t & t' & E & E' & A).
  exists t, t'. split; [exact E|]. split; [exact E'|]. now apply equivalent_true.
Qed.
Print Assumptions C156_read.
(** A tool with values of the format, written and read back, is equivalent to the original. *)
Theorem C156_written : forall i d se t, usable_format i d -> xs_format se = (i, d) -> writable_tool i d t -> xs_units se = xs_units (t_set t) ->
  exists line t', write_tool se t = Ok line /\ read_tool se (t_plated t) line = Ok t' /\ equivalent (of_file t) (of_file t') = Ok true.
Proof.
  intros i d se t U F W X. destruct (written_alike i d se t U F W X) as (line & t' & E & R & A). exists line, t'. split; [exact E|]. split; [exact R|]. now apply equivalent_true.
Qed.
Print Assumptions C156_written.
(** Converting both tools to the same units changes nothing, provided that their units were the same before. *)
Theorem C156_convert : forall u t t', xs_units (t_set t) = xs_units (t_set t') -> exists c c', conv_loose u (of_file t) = Ok c /\ conv_loose u (of_file t') = Ok c' /\
  equivalent c c' = equivalent (of_file t) (of_file t').
Proof.
  intros u t t' U. exists (of_file (conv_tool u t)), (of_file (conv_tool u t')). split; [apply conv_of_file|]. split; [apply conv_of_file|].
  destruct (equivalent_iff (conv_tool u t) (conv_tool u t')) as (r & -> & H). destruct (equivalent_iff t t') as (r' & -> & H'). rewrite (alike_conv u t t' U) in H.
  f_equal. apply Bool.eq_iff_eq_true. tauto.
Qed.
Print Assumptions C156_convert.
(** A copy of a tool made by from_tool is equivalent to the tool: false of every tool, because the copy has no settings. *)
Theorem C156_copy_refuted : forall t, equivalent (of_file t) (from_tool (of_file t)) = Err AttributeError /\ equivalent (from_tool (of_file t)) (of_file t) = Err AttributeError.
Proof. exact copy_compared. Qed.
Print Assumptions C156_copy_refuted.
(** Such copies have the number and the parameters of the tool and no hits; they can be written with settings, and are written like the original; they
    can be neither converted nor written without settings. *)
Theorem C156_copy_partial : forall se u t,
  (exists c, l_tool (from_tool (of_file t)) = c /\ t_num c = t_num t /\ t_hits c = 0%nat /\ alike (with_settings (t_set t) c) t) /\
  write_loose (Some se) (from_tool (of_file t)) = write_loose (Some se) (of_file t) /\
  write_loose None (from_tool (of_file t)) = Err AttributeError /\ conv_loose u (from_tool (of_file t)) = Err AttributeError.
Proof. intros se u t. split; [eexists; repeat split; reflexivity|repeat split; reflexivity]. Qed.
Print Assumptions C156_copy_partial.

(** The same tool with different numbers, orders and formats; and tools of one inch and of 25.4 mm: not equivalent before they are converted. *)
Definition metric_set : xset := mkXset Metric (3, 3)%nat ZTrail Absolute.
Example C156_ex : exists x x', defines 2 4 ZLead x (T "T03F02C.125") /\ defines 3 3 ZTrail x' (T "T11C0.125F2000") /\ d_num x <> d_num x' /\
  (forall c, In c tool_letters -> param c (d_params x) = param c (d_params x')).
Proof.
  eexists _, _. split; [|split; [|split]].
  - eapply (defines_tool 2 4 ZLead 3 (T "03") _ (T "F02C.125")); [digits|discriminate|reflexivity|].
    eapply (params_one 2 4 ZLead "F"%char (T "02") _ _ (T "C.125")); [cbn; tauto|apply (reads_digits 2 4 ZLead NoSign (T "02")); [digits|discriminate|cbn; lia]|].
    eapply (params_one 2 4 ZLead "C"%char (T ".125") _ [] []); [cbn; tauto|apply (reads_point 2 4 ZLead NoSign [] (T "125")); [digits|digits|discriminate]|constructor].
  - eapply (defines_tool 3 3 ZTrail 11 (T "11") _ (T "C0.125F2000")); [digits|discriminate|reflexivity|].
    eapply (params_one 3 3 ZTrail "C"%char (T "0.125") _ _ (T "F2000")); [cbn; tauto|apply (reads_point 3 3 ZTrail NoSign (T "0") (T "125")); [digits|digits|discriminate]|].
    eapply (params_one 3 3 ZTrail "F"%char (T "2000") _ [] []); [cbn; tauto|apply (reads_digits 3 3 ZTrail NoSign (T "2000")); [digits|discriminate|cbn; lia]|constructor].
  - discriminate.
  - intros c I. cbn in I. assert (E : forall a b : Qc, this a = this b -> Some a = Some b) by (intros a b H; f_equal; apply Qc_is_canon; now rewrite H).
    destruct I as [<-|[<-|[<-|[<-|[<-|[<-|[]]]]]]]; cbn [param d_params ceq]; try reflexivity; apply E; vm_compute; reflexivity.
Qed.
Example C156_ex_units : 
  let a := plain_tool 1 (zq 1) x_default in let b := plain_tool 2 (Q2Qc (254 # 10)) metric_set in
  equivalent (of_file a) (of_file b) = Ok false /\ equivalent (of_file (conv_tool Metric a)) (of_file b) = Ok true /\
  equivalent (of_file a) (of_file (count_hit (plain_tool 5 (zq 1) x_default))) = Ok true.
Proof. split; [|split]; vm_compute; reflexivity. Qed.

(** ** C157 *)
(** Linked tools: numbers with slashes between them are read as the list of these tools. *)
Theorem C157_read : forall l t, links l t -> read_link t = Ok l.
Proof. exact read_links. Qed.
Print Assumptions C157_read.
(** Every list of tools can be written and read back: false of the empty list. *)
Theorem C157_write_read_partial : forall l, l <> [] -> read_link (write_link l) = Ok l.
Proof. exact link_roundtrip. Qed.
Print Assumptions C157_write_read_partial.
Theorem C157_empty_refuted : read_link (write_link []) = Err ValueError.
Proof. reflexivity. Qed.
Print Assumptions C157_empty_refuted.
(** Reading a drill file never finds linked tools: such lines are kept as unknown. *)
Definition kind_of (s : estmt) : option text := match s with EUnknown t => Some t | _ => None end.
Theorem C157_file_refuted :
  rmap (fun f => map (fun s => kind_of (fst s)) (xf_stmts f)) (parse_raw no_comment_tool x_default [] (file_text [nl] [T "M48"; T "INCH,LZ"; T "T1C0.1"; T "%"; T "T1"; T "1/2"; T "X01Y01"; T "M30"])) =
  Ok [None; None; None; None; None; Some (T "1/2"); None; None].
Proof. vm_compute. reflexivity. Qed.
Print Assumptions C157_file_refuted.
Example C157_ex : links [1; 2; 12]%Z (T "1/ 02 /12") /\ write_link [1; 2; 12]%Z = T "1/2/12".
Proof.
  split; [|reflexivity]. apply (links_more 1 _ [] (T "1") [] (T " 02 /12")); [constructor|repeat split; [digits|discriminate]|constructor|].
  apply (links_more 2 _ (T " ") (T "02") (T " ") (T "12")); [constructor; [now left|constructor]|repeat split; [digits|discriminate]|constructor; [now left|constructor]|].
  apply (links_one 12 [] (T "12") []); [constructor|repeat split; [digits|discriminate]|constructor].
Qed.
