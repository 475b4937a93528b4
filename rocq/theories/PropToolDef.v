(** Properties of tool definitions: all parameters. *)
From Verif Require Import PyBase QcLib NumModel NumSpec NumProofs FmtModel GerberText ExcellonModel ExcellonFile ExcellonSpec ExcellonRun ExcellonMore ToolDefProofs PropExcellon.
From Coq Require Import Lia.
Open Scope list_scope.
Open Scope Qc_scope.

(** ** C152 *)
(** Reading: the speed is given in thousands, everything else as it is; the last value of a letter counts. *)
Theorem C152_read : forall i d z se p x line, readable i d -> defines i d z x line -> xs_format se = (i, d) -> xs_zeros se = z ->
  read_tool se p line = Ok {| t_num := d_num x;
    t_retract := param "B"%char (d_params x); t_feed := param "F"%char (d_params x); t_maxhit := param "H"%char (d_params x);
    t_rpm := option_map (fun v => zq 1000 * v) (param "S"%char (d_params x));
    t_diam := param "C"%char (d_params x); t_depth := param "Z"%char (d_params x); t_plated := p; t_hits := 0; t_set := se |}.
Proof. intros i d z se p x line R D F Z. exact (read_tool_all i d z R se p x line D F Z). Qed.
Print Assumptions C152_read.
(** Writing and reading back: the claim for all tools with values of the format is false for speeds of 100000 and more. *)
Definition same_parameters (t t' : tool) : Prop := t_num t' = t_num t /\ t_retract t' = t_retract t /\ t_feed t' = t_feed t /\ t_maxhit t' = t_maxhit t /\
  t_rpm t' = t_rpm t /\ t_diam t' = t_diam t /\ t_depth t' = t_depth t.
Definition fast : tool := mkTool 1 None None None (Some (zq 120000)) (Some 1) None None 0 x_default.
Theorem C152_fast_refuted : grid_value 3 3 (zq 120000 / Q2Qc 1000) /\ exists line t', write_tool (mkXset Metric (3, 3)%nat ZTrail Absolute) fast = Ok line /\
  read_tool (mkXset Metric (3, 3)%nat ZTrail Absolute) None line = Ok t' /\ ~ same_parameters fast t' .
Proof.
  split; [exists 120000%Z; split; [reflexivity|apply Qc_is_canon; vm_compute; reflexivity]|].
  eexists _, _. split; [vm_compute; reflexivity|]. split; [vm_compute; reflexivity|]. intros (_ & _ & _ & _ & R & _). apply (f_equal (option_map this)) in R. vm_compute in R. discriminate.
Qed.
Print Assumptions C152_fast_refuted.
Theorem C152_write_read_partial : forall i d se p t, usable_format i d -> xs_format se = (i, d) -> writable_tool i d t ->
  exists line t', write_tool se t = Ok line /\ read_tool se p line = Ok t' /\ same_parameters t t' /\ t_plated t' = p /\ t_hits t' = 0%nat.
Proof.
  intros i d se p t U F W. destruct (tool_roundtrip i d se p t U F W) as (line & E & R). eexists _, _. split; [exact E|]. split; [exact R|]. unfold same_parameters. auto 10.
Qed.
Print Assumptions C152_write_read_partial.
(** A definition with every parameter, one of them twice; and a tool with every parameter. *)
Definition full_line : text := T "T03F02C.125S123B05H015Z-0025C0.1".
Example C152_read_ex : readable 2 4 /\ exists x, defines 2 4 ZLead x full_line /\
  match read_tool x_default None full_line with
  | Ok t => t_num t = 3%Z /\ map (option_map this) [t_retract t; t_feed t; t_maxhit t; t_rpm t; t_diam t; t_depth t] =
      [Some (5 # 1); Some (2 # 1); Some (3 # 2); Some (12300 # 1); Some (1 # 10); Some (-1 # 4)]%Q
  | Err _ => False
  end.
Proof.
  split; [unfold readable; lia|]. eexists. split; [|vm_compute; auto].
  eapply (defines_tool 2 4 ZLead 3 (T "03") _ (T "F02C.125S123B05H015Z-0025C0.1")); [digits|discriminate|reflexivity|].
  eapply (params_one 2 4 ZLead "F"%char (T "02") _ _ (T "C.125S123B05H015Z-0025C0.1")); [cbn; tauto|apply (reads_digits 2 4 ZLead NoSign (T "02")); [digits|discriminate|cbn; lia]|].
  eapply (params_one 2 4 ZLead "C"%char (T ".125") _ _ (T "S123B05H015Z-0025C0.1")); [cbn; tauto|apply (reads_point 2 4 ZLead NoSign [] (T "125")); [digits|digits|discriminate]|].
  eapply (params_one 2 4 ZLead "S"%char (T "123") _ _ (T "B05H015Z-0025C0.1")); [cbn; tauto|apply (reads_digits 2 4 ZLead NoSign (T "123")); [digits|discriminate|cbn; lia]|].
  eapply (params_one 2 4 ZLead "B"%char (T "05") _ _ (T "H015Z-0025C0.1")); [cbn; tauto|apply (reads_digits 2 4 ZLead NoSign (T "05")); [digits|discriminate|cbn; lia]|].
  eapply (params_one 2 4 ZLead "H"%char (T "015") _ _ (T "Z-0025C0.1")); [cbn; tauto|apply (reads_digits 2 4 ZLead NoSign (T "015")); [digits|discriminate|cbn; lia]|].
  eapply (params_one 2 4 ZLead "Z"%char (T "-0025") _ _ (T "C0.1")); [cbn; tauto|apply (reads_digits 2 4 ZLead Minus (T "0025")); [digits|discriminate|cbn; lia]|].
  eapply (params_one 2 4 ZLead "C"%char (T "0.1") _ [] []); [cbn; tauto|apply (reads_point 2 4 ZLead NoSign (T "0") (T "1")); [digits|digits|discriminate]|constructor].
Qed.
Definition full_tool : tool := mkTool 3 (Some (grid 50000 4)) (Some (grid 20000 4)) (Some (grid 15000 4)) (Some (zq 12300)) (Some (grid 1250 4)) (Some (grid (-2500) 4)) None 0 x_default.
Example C152_write_read_ex : usable_format 2 4 /\ xs_format x_default = (2, 4)%nat /\ writable_tool 2 4 full_tool /\ write_tool x_default full_tool = Ok (T "T03B05F02H015S123C0.1250Z-0025").
Proof.
  split; [unfold usable_format; lia|]. split; [reflexivity|]. split; [|vm_compute; reflexivity].
  assert (G : forall k, (Z.abs k < 10 ^ Z.of_nat 6)%Z -> grid_opt 2 4 (Some (grid k 4))) by (intros k A; exists k; auto).
  split; [cbn; lia|]. cbn [full_tool t_num t_retract t_feed t_maxhit t_depth t_rpm t_diam].
  repeat (split; [apply G; reflexivity|]). split.
  - split; [vm_compute; reflexivity|]. exists 123000%Z. split; [reflexivity|apply Qc_is_canon; vm_compute; reflexivity].
  - exists 1250%Z. split; [reflexivity|]. split; [reflexivity|right; vm_compute; discriminate].
Qed.
