(** Properties C116 to C118: drill programs written by the Excellon context. *)
From Verif Require Import PyBase QcLib NumModel NumSpec NumProofs GerberText SettingsModel ExcellonModel ExcellonFile ExcellonSpec ExcellonProofs
  ToolModel HeadSpec RoutSpec DrillOutModel DrillOutSpec DrillOutProofs DrillOutSafe PropExcellon PropRout.
From Coq Require Import QArith Qcanon.
Open Scope list_scope.
Open Scope Qc_scope.

(** ** C116 *)
(** Rendering a file, writing the statements and reading them again gives what the primitives stand for.  Refuted: the
    primitives of a file do not carry their hits, and rendering any file that has some fails. *)
Theorem C116_file_refuted : forall py3 f, xf_hits f <> [] -> exists e, render_file py3 f = Err e.
Proof. exact file_fails. Qed.
Print Assumptions C116_file_refuted.
(** With primitives that do carry their hits: proved for python 2 if no hole is where the tool already is and no milled
    segment has length 0. *)
Theorem C116_round_trip_partial : forall hs i d se s ps se', usable_format i d -> xs_format se = (i, d) -> xs_notation se = Absolute ->
  numbered s -> Forall (writable i d s) ps -> moving None ps ->
  exists c text f, render_all false se s ps = Ok c /\ out_text se s c = Ok text /\ parse_raw hs se' [] text = Ok f /\
    Forall2 (made_as s (xf_store f)) (xf_hits f) ps /\ xs_units (xf_set f) = xs_units se.
Proof. exact round_trip. Qed.
Print Assumptions C116_round_trip_partial.
(** In python 3 every primitive fails. *)
Theorem C116_python3_refuted : forall se s ps, ps <> [] -> exists e, render_all true se s ps = Err e.
Proof.
  intros se s [|p ps] N; [contradiction|]. unfold render_all. destruct (new_ctx se) as [c|e]; [|eexists; reflexivity]. cbn [bind render_prims].
  destruct p as [q [l|]|a b [[l r]|]|]; cbn [render_prim render_drill render_slot]; try (eexists; reflexivity); unfold use_tool; destruct (tool_at s (Some l)); eexists; reflexivity.
Qed.
Print Assumptions C116_python3_refuted.

Definition out_tools : list tool :=
  [mkTool 1 None None None None (Some (grid 5 2)) None None 0 x_default; mkTool 2 None None None None (Some (grid 1 1)) None None 0 x_default].
Definition out_prims : list dprim :=
  [DDrill (n1, n2) (Some 0%nat); DSlot (n2, n2) (n3, n2) (Some (1%nat, true)); DSlot (n3, n2) (n3, n3) (Some (1%nat, true)); DDrill (n1, n1) (Some 1%nat);
   DSlot (n1, n1) (n2, n1) (Some (0%nat, false)); DDrill (n2, n3) (Some 0%nat)].
Definition out_lines (ps : list dprim) : list string :=
  match render_all false x_default out_tools ps with
  | Ok c => match out_text x_default out_tools c with Ok t => map string_of_list_ascii (split_on nl t) | Err _ => [] end
  | Err _ => []
  end.
Definition out_read (ps : list dprim) : res xfile :=
  do c <- render_all false x_default out_tools ps; do t <- out_text x_default out_tools c; parse_raw (holesize true) x_default [] t.
Definition out_view (ps : list dprim) : list (option Z * option (string * list Q)) := rout_view (out_read ps).
Example C116_ex : out_lines out_prims =
  ["M48"; ";FILE_FORMAT=2:4"; "INCH,LZ"; "T01C0.0500"; "T02C0.1000"; "%"; "G90"; "T01"; "X01Y02"; "T02"; "G00X02"; "M15"; "G01X03"; "G01Y03"; "M16"; "M17"; "G05";
   "X01Y01"; "T01"; "X01Y01G85X02Y01"; "Y03"; "M30"; ""]%string.
Proof. vm_compute. reflexivity. Qed.
Lemma grid_small k : (Z.abs k < 10 ^ 6)%Z -> grid_value 2 4 (grid k 4).
Proof. intros H. exists k. split; [exact H|reflexivity]. Qed.
Lemma out_tool_0 : writable_tool 2 4 (mkTool 1 None None None None (Some (grid 5 2)) None None 0 x_default).
Proof. unfold writable_tool. cbn. repeat split; try lia. exists 500%Z. split; [lia|]. split; [apply Qc_is_canon; reflexivity|right; lia]. Qed.
Lemma out_tool_1 : writable_tool 2 4 (mkTool 2 None None None None (Some (grid 1 1)) None None 0 x_default).
Proof. unfold writable_tool. cbn. repeat split; try lia. exists 1000%Z. split; [lia|]. split; [apply Qc_is_canon; reflexivity|right; lia]. Qed.
Ltac can_write := repeat (apply Forall_cons || apply Forall_nil); (do 3 eexists; split; [reflexivity|]; split; [reflexivity|]; split; [apply out_tool_0 || apply out_tool_1|]);
  repeat (apply Forall_cons || apply Forall_nil); split; apply grid_small; reflexivity.
Example C116_ex_hypotheses : usable_format 2 4 /\ xs_format x_default = (2, 4)%nat /\ xs_notation x_default = Absolute /\ numbered out_tools /\ Forall (writable 2 4 out_tools) out_prims /\ moving None out_prims.
Proof.
  split; [unfold usable_format; lia|]. split; [reflexivity|]. split; [reflexivity|]. split; [|split].
  - intros l k t u L K E. destruct l as [|[|l]], k as [|[|k]]; cbn in L, K; try reflexivity; try (destruct l; discriminate); try (destruct k; discriminate); injection L as <-; injection K as <-; discriminate E.
  - can_write.
  - cbn [moving out_prims stands_for last_end]. repeat split; intros X.
    + discriminate X.
    + apply (f_equal (fun p => this (fst p))) in X. vm_compute in X. discriminate X.
    + apply (f_equal (fun p => this (snd p))) in X. vm_compute in X. discriminate X.
    + apply (f_equal (fun o => match o with Some p => this (fst p) | None => 0%Q end)) in X. vm_compute in X. discriminate X.
    + apply (f_equal (fun o => match o with Some p => this (snd p) | None => 0%Q end)) in X. vm_compute in X. discriminate X.
Qed.
(** A hole where the tool already is gets lost: here a hole that is to be enlarged with the second tool. *)
Theorem C116_repeat_refuted : exists ps, Forall (writable 2 4 out_tools) ps /\ List.length ps = 2%nat /\ out_view ps = [(Some 1%Z, Some ("hole"%string, [1; 2]%Q))].
Proof. exists [DDrill (n1, n2) (Some 0%nat); DDrill (n1, n2) (Some 1%nat)]. split; [can_write|]. split; [reflexivity|vm_compute; reflexivity]. Qed.
Print Assumptions C116_repeat_refuted.
(** After a milled segment of length 0 the file cannot be read: the line G01M16 is no position. *)
Theorem C116_length_refuted : exists ps, Forall (writable 2 4 out_tools) ps /\ out_read ps = Err ValueError.
Proof. exists [DSlot (n1, n2) (n1, n2) (Some (0%nat, true)); DSlot (n2, n2) (n3, n2) (Some (0%nat, true))]. split; [can_write|]. vm_compute. reflexivity. Qed.
Print Assumptions C116_length_refuted.

(** ** C117 *)
(** The tool moves quickly, drills and is changed only when raised, mills only when lowered, and is raised at the end.
    Proved except that it may be changed when lowered if there are several tools. *)
Theorem C117_safe_partial : forall py3 se s ps c, render_all py3 se s ps = Ok c ->
  safe false false (statements se c) /\ (one_tool ps -> safe true false (statements se c)).
Proof. intros py3 se s ps c H. split; [exact (always_safe false py3 se s ps c H ltac:(discriminate))|]. intros O. exact (always_safe true py3 se s ps c H (fun _ => O)). Qed.
Print Assumptions C117_safe_partial.
Definition program (ps : list dprim) (P : list estmt -> Prop) : Prop :=
  match render_all false x_default out_tools ps with Ok c => P (statements x_default c) | Err _ => False end.
Lemma program_exists ps P : program ps P -> exists c, render_all false x_default out_tools ps = Ok c /\ P (statements x_default c).
Proof. unfold program. destruct (render_all false x_default out_tools ps) as [c|]; [|intros []]. eauto. Qed.
Theorem C117_change_refuted : exists ps c, render_all false x_default out_tools ps = Ok c /\ ~ safe true false (statements x_default c).
Proof.
  exists [DSlot (n1, n1) (n2, n1) (Some (0%nat, true)); DSlot (n2, n1) (n3, n1) (Some (1%nat, true))]. apply (program_exists _ (fun l => ~ safe true false l)). vm_compute. intuition discriminate.
Qed.
Print Assumptions C117_change_refuted.
Example C117_ex : out_lines [DSlot (n1, n1) (n2, n1) (Some (0%nat, true)); DSlot (n2, n1) (n3, n1) (Some (1%nat, true))] =
  ["M48"; ";FILE_FORMAT=2:4"; "INCH,LZ"; "T01C0.0500"; "T02C0.1000"; "%"; "G90"; "T01"; "G00X01Y01"; "M15"; "G01X02"; "T02"; "G01X03"; "M16"; "M17"; "M30"; ""]%string.
Proof. vm_compute. reflexivity. Qed.
Example C117_ex_safe : exists c, render_all false x_default out_tools out_prims = Ok c /\ safe false false (statements x_default c) /\ ~ safe false true (statements x_default c).
Proof. apply (program_exists _ (fun l => safe false false l /\ ~ safe false true l)). vm_compute. intuition discriminate. Qed.

Example C117_ex_one : let ps := [DSlot (n1, n1) (n2, n1) (Some (0%nat, true)); DDrill (n3, n1) (Some 0%nat); DSlot (n1, n2) (n2, n2) (Some (0%nat, true))] in
  one_tool ps /\ out_lines ps = ["M48"; ";FILE_FORMAT=2:4"; "INCH,LZ"; "T01C0.0500"; "%"; "G90"; "T01"; "G00X01Y01"; "M15"; "G01X02"; "M16"; "M17"; "G05"; "X03"; "G00X01Y02"; "M15"; "G01X02";
    "M16"; "M17"; "M30"; ""]%string.
Proof.
  split; [|vm_compute; reflexivity]. intros p q k j m n [<-|[<-|[<-|[]]]] [<-|[<-|[<-|[]]]] A B; injection A as <- _; injection B as <- _; reflexivity.
Qed.

(** ** C118 *)
(** Whatever is rendered, the header defines exactly the tools used, each once. *)
Theorem C118_definitions : forall py3 se s ps c, render_all py3 se s ps = Ok c ->
  NoDup (defined_in (statements se c)) /\ forall l, In l (defined_in (statements se c)) <-> exists p m, In p ps /\ stands_for p = Some (l, m).
Proof. exact tools_defined. Qed.
Print Assumptions C118_definitions.
Example C118_ex : exists c, render_all false x_default out_tools out_prims = Ok c /\ defined_in (statements x_default c) = [0; 1]%nat.
Proof. apply (program_exists _ (fun l => defined_in l = [0; 1]%nat)). vm_compute. reflexivity. Qed.
