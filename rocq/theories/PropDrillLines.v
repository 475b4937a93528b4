(** Properties of control statements and end statements of drill files. *)
From Verif Require Import PyBase QcLib NumModel NumSpec FmtModel GerberText ExcellonModel ExcellonFile ExcellonSpec ExcellonRun DrillLinesSpec DrillLinesProofs PropExcellon.
From Coq Require Import Lia.
Import ListNotations.
Open Scope list_scope.
Open Scope Qc_scope.

(** ** C153 *)
(** Control statements: written as a line each and read back, they are the same statements and change just the modes they stand for. *)
Theorem C153_control : forall holesize se h u l st, Forall (control u) l -> x_prev st = [] ->
  exists ts st', Forall2 (fun s t => write_stmt se h (s, u) = Ok t) l ts /\ parse_lines holesize st ts = Ok st' /\
    x_stmts st' = x_stmts st ++ l /\ modes_of st' = fold_left (fun m s => changed s m) l (modes_of st) /\ all_else st' = all_else st.
Proof. intros holesize se h u l st C E. exact (controls_read holesize se h u l C st E). Qed.
Print Assumptions C153_control.
(** The statement for all statements without tools or hits is false: a routing statement is written as G00 alone, ... *)
Definition no_holes (_ : unit_) (_ : text) : res (option tool) := Ok None.
Theorem C153_route_refuted : forall se h u st, x_prev st = [] ->
  exists t st', write_stmt se h (ERoute, u) = Ok t /\ parse_line no_holes st t = Ok st' /\ x_stmts st' = x_stmts st /\ x_prev st' = t.
Proof. intros se h u st E. eexists. eexists. split; [reflexivity|]. split; [unfold parse_line; rewrite E; reflexivity|]. split; reflexivity. Qed.
Print Assumptions C153_route_refuted.
(** ... the number format of a unit statement is lost, ... *)
Theorem C153_unit_format_refuted : forall se h u z f st, x_prev st = [] ->
  exists t st', write_stmt se h (EUnit u z (Some f), u) = Ok t /\ parse_line no_holes st t = Ok st' /\ x_stmts st' = x_stmts st ++ [EUnit u z None] /\ x_format st' = x_format st.
Proof.
  intros se h u z f st E. destruct (control_read no_holes st se h (EUnit u z None) u (c_units u z) E) as (t & st' & W & P & S1 & M & A). exists t, st'.
  split; [exact W|]. split; [exact P|]. split; [exact S1|]. apply (f_equal m_format) in M. exact M.
Qed.
Print Assumptions C153_unit_format_refuted.
(** ... and the coordinates of an end statement are always written with five decimals, trailing zeros left out,
    which is something else in files that leave leading zeros out. *)
Definition end_at_one : estmt := EEnd (Some (zq 1)) None.
Definition metric_file : xset := mkXset Metric (3, 3)%nat ZTrail Absolute.
Theorem C153_end_refuted : exists t st', write_stmt metric_file [] (end_at_one, Metric) = Ok t /\ parse_line no_holes (x_start metric_file []) t = Ok st' /\
  match x_stmts st' with [EEnd (Some v) None] => this v = (1 # 1000)%Q | _ => False end.
Proof. eexists. eexists. split; [vm_compute; reflexivity|]. split; [vm_compute; reflexivity|]. vm_compute. reflexivity. Qed.
Print Assumptions C153_end_refuted.
(** What holds: in files that leave trailing zeros out, with two digits before and at most five behind the point. *)
Theorem C153_end_partial : forall holesize st se h u d x y, (1 <= d <= 5)%nat -> end_coordinate d x -> end_coordinate d y ->
  x_prev st = [] -> x_format st = [2; Z.of_nat d]%Z -> x_zeros st = ZLead ->
  exists t st', write_stmt se h (EEnd x y, u) = Ok t /\ parse_line holesize st t = Ok st' /\ x_stmts st' = x_stmts st ++ [EEnd x y] /\ modes_of st' = modes_of st /\ all_else st' = all_else st.
Proof. exact end_read. Qed.
Print Assumptions C153_end_partial.
(** A header and a change of modes; an end statement. *)
Definition some_lines : list estmt :=
  [EHeaderBegin; EComment (T " made by hand"); EVer 1; EFmat 2; EUnit Metric ZTrail None; EInc true; EHeaderEnd; EAbs; EFeed 75; EZRout; ERetract; EDrill; EMeasure Metric; ERewind].
Lemma handmade_plain : plain_comment (T " made by hand").
Proof. split; [discriminate|]. intros w W (a & b & E). apply (f_equal (text_in w)) in E. assert (X : text_in w (T " made by hand") = false) by (cbn in W; decompose [or] W; subst; try reflexivity; contradiction).
  rewrite X in E. symmetry in E. clear X W. enough (text_in w (a ++ w ++ b) = true) by congruence. clear E. induction a as [|c a IH].
  - cbn [app]. assert (X : starts_with w (w ++ b) = true) by (clear; induction w as [|x w IH]; [reflexivity|cbn; now rewrite ceq_refl]).
    destruct (w ++ b) as [|c r]; cbn [text_in]; rewrite X; reflexivity.
  - cbn [app text_in]. rewrite IH. apply Bool.orb_true_r.
Qed.
Example C153_control_ex : Forall (control Metric) some_lines /\ fold_left (fun m s => changed s m) some_lines (modes_of (x_start x_default [])) = mkModes Metric ZTrail Absolute [2; 4]%Z SDrill false /\
  map (fun s => write_stmt x_default [] (s, Metric)) [EVer 1; EFmat 2; EUnit Metric ZTrail None; EFeed 75] = [Ok (T "VER,1"); Ok (T "FMAT,2"); Ok (T "METRIC,TZ"); Ok (T "F75")].
Proof.
  split; [|split; reflexivity]. unfold some_lines. repeat (apply Forall_cons; [|]); try apply Forall_nil; try (constructor; (lia || exact handmade_plain)).
Qed.
Example C153_end_ex : end_coordinate 4 (Some (grid 12500 4)) /\ end_coordinate 4 None /\ x_format (x_start x_default []) = [2; Z.of_nat 4]%Z /\ x_zeros (x_start x_default []) = ZLead /\
  write_stmt x_default [] (EEnd (Some (grid 12500 4)) None, Inch) = Ok (T "M30X0125").
Proof. split; [exists 12500%Z; split; [lia|reflexivity]|]. split; [exact I|]. split; [reflexivity|]. split; [reflexivity|]. vm_compute. reflexivity. Qed.
