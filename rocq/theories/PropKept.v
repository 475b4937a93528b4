(** Tools of drill files while the rest of the file is read. *)
From Verif Require Import PyBase QcLib NumModel NumSpec NumProofs GerberText ExcellonModel ExcellonFile ExcellonSpec ExcellonRun ToolModel KeptSpec KeptProofs PropExcellon.
From Coq Require Import Lia.
Open Scope list_scope.
Open Scope Qc_scope.

(** ** C162 *)
(** However a file goes on, the tools read so far keep their values, as do tools given beforehand. *)
Theorem C162_kept : forall holesize se ext data more f f', parse_raw holesize se ext data = Ok f -> parse_raw holesize se ext (data ++ nl :: more) = Ok f' ->
  forall l t, nth_error (xf_store f) l = Some t -> exists t', nth_error (xf_store f') l = Some t' /\ kept t t'.
Proof. exact file_keeps. Qed.
Print Assumptions C162_kept.
Theorem C162_given : forall holesize se ext data f, parse_raw holesize se ext data = Ok f ->
  forall l t, nth_error ext l = Some t -> exists t', nth_error (xf_store f) l = Some t' /\ kept t t'.
Proof. exact ext_keeps. Qed.
Print Assumptions C162_given.
(** A definition in the header adds a tool with the values of the definition, which the tool still has after any number of further lines. *)
Theorem C162_definition : forall holesize i d st x line rest st', readable i d -> defines i d (x_zeros st) x line ->
  x_state st = SHeader -> x_prev st = [] -> x_format st = [Z.of_nat i; Z.of_nat d] -> parse_lines holesize st (line :: rest) = Ok st' ->
  exists t, nth_error (x_store st') (List.length (x_store st)) = Some t /\ t_num t = d_num x /\
    t_retract t = param "B"%char (d_params x) /\ t_feed t = param "F"%char (d_params x) /\ t_maxhit t = param "H"%char (d_params x) /\
    t_rpm t = option_map (fun v => zq 1000 * v) (param "S"%char (d_params x)) /\ t_diam t = param "C"%char (d_params x) /\ t_depth t = param "Z"%char (d_params x).
Proof.
  intros holesize i d st x line rest st' R X Hs Hp Hf H. destruct (definition_step holesize i d (x_zeros st) st x line R X Hs Hp Hf eq_refl) as (st1 & t & E & S & _ & A1 & A2 & A3 & A4 & A5 & A6 & A7 & _).
  cbn [parse_lines] in H. rewrite E in H. cbn [bind] in H. destruct (lines_keep holesize rest st1 st' H (List.length (x_store st)) t) as (t' & G & (K1 & K2 & K3 & K4 & K5 & K6 & K7 & _)).
  - rewrite S. unfold tget. rewrite nth_error_app2 by lia. now rewrite Nat.sub_diag.
  - exists t'. split; [exact G|]. repeat split; congruence.
Qed.
Print Assumptions C162_definition.
(** and it is the tool of its number from then on. *)
Theorem C162_number : forall holesize i d st x line, readable i d -> defines i d (x_zeros st) x line ->
  x_state st = SHeader -> x_prev st = [] -> x_format st = [Z.of_nat i; Z.of_nat d] ->
  exists st1, parse_line holesize st line = Ok st1 /\ dget (d_num x) (x_tools st1) = Some (List.length (x_store st)).
Proof.
  intros holesize i d st x line R X Hs Hp Hf. destruct (definition_step holesize i d (x_zeros st) st x line R X Hs Hp Hf eq_refl) as (st1 & t & E & S & D & _). exists st1. split; [exact E|exact D].
Qed.
Print Assumptions C162_number.

(** A tool with a feed rate and a retraction rate which is plated according to a comment below it (python 2; from 3 on the comment raises TypeError, C94), and used. *)
Definition above : text := T "M48" ++ nl :: T "INCH,LZ" ++ nl :: T "T1C.1F02B05".
Definition below : text := T "; Holesize 1. = 3 Tolerance = +0/-0 PLATED MILS Quantity = 1" ++ nl :: T "%" ++ nl :: T "T1" ++ nl :: T "X01Y02".
Definition seen (r : res xfile) : option (list (list (option Q) * option plating * nat)) :=
  match r with Ok f => Some (map (fun t => (map (option_map this) [t_retract t; t_feed t; t_diam t], t_plated t, t_hits t)) (firstn 1 (xf_store f))) | Err _ => None end.
Example C162_ex : seen (parse_raw (holesize false) x_default [] above) = Some [([Some (5 # 1); Some (2 # 1); Some (1 # 10)], None, 0%nat)]%Q /\
  seen (parse_raw (holesize false) x_default [] (above ++ nl :: below)) = Some [([Some (5 # 1); Some (2 # 1); Some (1 # 10)], Some PYes, 1%nat)]%Q.
Proof. split; vm_compute; reflexivity. Qed.
Example C162_ex_definition : readable 2 4 /\ exists st, parse_lines (holesize false) (x_start x_default []) [T "M48"; T "INCH,LZ"] = Ok st /\ x_state st = SHeader /\ x_prev st = [] /\ x_format st = [2; 4]%Z /\
  exists x, defines 2 4 (x_zeros st) x (T "T1C.1F02") /\ d_num x = 1%Z /\ option_map this (param "F"%char (d_params x)) = Some (2 # 1)%Q.
Proof.
  split; [unfold readable; lia|]. eexists. split; [vm_compute; reflexivity|]. repeat (split; [reflexivity|]). eexists. split.
  - eapply (defines_tool 2 4 ZLead 1 (T "1") _ (T "C.1F02")); [digits|discriminate|reflexivity|].
    eapply (params_one 2 4 ZLead "C"%char (T ".1") _ _ (T "F02")); [cbn; tauto|apply (reads_point 2 4 ZLead NoSign [] (T "1")); [digits|digits|discriminate]|].
    eapply (params_one 2 4 ZLead "F"%char (T "02") _ [] []); [cbn; tauto|apply (reads_digits 2 4 ZLead NoSign (T "02")); [digits|discriminate|cbn; lia]|constructor].
  - split; [reflexivity|vm_compute; reflexivity].
Qed.
