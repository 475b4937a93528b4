(** Properties of unit conversion and offset of Gerber files: C31-C33. *)
From Verif Require Import PyBase QcLib NumModel MacroModel GerberText GerberEval GerberEvalSpec GerberEvalProofs HeapModel HeapSpec HeapProofs GerberConv GerberConvSpec GerberConvProofs.
Open Scope list_scope.
Open Scope Qc_scope.

Definition no_centre : centre_fun := fun _ _ _ _ => None.
Definition coord (f : option text) (x y : option Z) (op : option text) : stmt :=
  SCoord f (option_map zq x) (option_map zq y) None None op.
Definition D01 := Some (T "D01").
Definition D02 := Some (T "D02").
Definition D03 := Some (T "D03").
(** Two lines with one aperture, a flash, a region and an arc. *)
Definition body : list stmt :=
  [SAD 10 (T "C") [[zq 1]]; SAD 11 (T "R") [[zq 2; zq 3]]; SAp 10 false; SQuad MultiQ; coord (Some (T "G01")) None None None;
   coord None (Some 1%Z) (Some 1%Z) D02; coord None (Some 5%Z) None D01; coord None None (Some 7%Z) None;
   SAp 11 false; coord None None None D03;
   SReg On; coord None (Some 4%Z) (Some 4%Z) D02; coord None (Some 8%Z) None D01; coord None None (Some 8%Z) None;
   coord None (Some 4%Z) (Some 4%Z) None; SReg Off; SAp 10 false; coord (Some (T "G03")) (Some 6%Z) (Some 6%Z) D01].
Definition metric_file : list stmt := SCom (T "x") :: SMO true Metric :: body.
Lemma metric_in_unit : all_in_unit Metric metric_file.
Proof.
  split; [repeat constructor; discriminate|]. right. exists [SCom (T "x")], body. split; [reflexivity|repeat constructor].
Qed.
Lemma metric_opens : is_ok (open_file no_centre metric_file) = true.
Proof. vm_compute. reflexivity. Qed.

(** ** C31 *)
(** The full statement is false: (a) in a file that mixes units, only part of the object graph is
    converted, and the way back does not restore it; (b) the segment of a region with one segment
    is not converted. *)
Definition mixed : list stmt :=
  [SMO true Inch; SAD 10 (T "C") [[zq 1]]; SAp 10 false; coord None (Some 1%Z) (Some 1%Z) D01; SMO true Metric; coord None (Some 2%Z) (Some 2%Z) D01].
Theorem C31_round_trip_refuted : exists f, open_file no_centre mixed = Ok f /\
  file_seq [Inch; Metric] f <> Ok f.
Proof.
  destruct (open_file no_centre mixed) as [f|] eqn:E; [|vm_compute in E; discriminate]. exists f. split; [reflexivity|].
  intros H. assert (X : rmap (fun f => map (fun o => po_units o) (f_heap f)) (file_seq [Inch; Metric] f) = Ok (map (fun o => po_units o) (f_heap f))) by (rewrite H; reflexivity).
  assert (Y : (do f <- open_file no_centre mixed; rmap (fun f => map (fun o => po_units o) (f_heap f)) (file_seq [Inch; Metric] f)) = Ok [Some Metric; Some Metric; Some Metric]) by (vm_compute; reflexivity).
  assert (Z : (do f <- open_file no_centre mixed; Ok (map (fun o => po_units o) (f_heap f))) = Ok [Some Inch; Some Inch; Some Metric]) by (vm_compute; reflexivity).
  rewrite E in Y, Z. cbn [bind] in Y, Z. rewrite X in Y. rewrite Y in Z. discriminate Z.
Qed.
Print Assumptions C31_round_trip_refuted.
Definition sliver : list stmt :=
  [SMO true Inch; SReg On; coord None (Some 0%Z) (Some 0%Z) D02; coord None (Some 1%Z) (Some 1%Z) D01; SReg Off].
Theorem C31_converted_once_refuted : exists f f', open_file no_centre sliver = Ok f /\ all_in_unit Inch sliver /\
  file_to Metric f = Ok f' /\ ~ converted Metric f f'.
Proof.
  destruct (open_file no_centre sliver) as [f|] eqn:E; [|vm_compute in E; discriminate].
  destruct (file_to Metric f) as [f'|] eqn:E'; [|exfalso; assert (X : (do f <- open_file no_centre sliver; rmap (fun _ => true) (file_to Metric f)) = Ok true) by (vm_compute; reflexivity); rewrite E in X; cbn [bind] in X; rewrite E' in X; discriminate].
  exists f, f'. split; [reflexivity|]. split; [split; [repeat constructor|now left]|]. split; [exact E'|].
  intros (_ & _ & _ & _ & C & _).
  assert (H1 : (do f <- open_file no_centre sliver; Ok (f_prims f, hget (f_heap f) 2%nat)) = Ok ([2%nat], Some (new_region [1%nat] (Some Inch)))) by (vm_compute; reflexivity).
  assert (H2 : (do f <- open_file no_centre sliver; do f' <- file_to Metric f; Ok (option_map po_units (hget (f_heap f) 1%nat), option_map po_units (hget (f_heap f') 1%nat))) = Ok (Some (Some Inch), Some (Some Inch))) by (vm_compute; reflexivity).
  rewrite E in H1, H2. cbn [bind] in H1, H2. rewrite E' in H2. cbn [bind] in H2. apply ok_inj in H1, H2. injection H1 as P R. injection H2 as U1 U2.
  change (option_map po_units (hget (f_heap f) 1%nat) = Some (Some Inch)) in U1. change (option_map po_units (hget (f_heap f') 1%nat) = Some (Some Inch)) in U2.
  change (hget (f_heap f) 2%nat = Some (new_region [1%nat] (Some Inch))) in R.
  rewrite P in C. specialize (C 2%nat 1%nat (or_introl eq_refl)).
  assert (Q : part_of (f_heap f) 2%nat 1%nat) by (eapply Part_sub; [exact R|now left|constructor]).
  specialize (C Q). clear R Q. revert U1 U2 C. destruct (hget (f_heap f) 1%nat) as [o|]; [|intros U1; discriminate U1]. destruct (hget (f_heap f') 1%nat) as [o'|]; [|intros _ U2; discriminate U2].
  intros U1 U2 C. cbn in U1, U2, C. injection C as ->. injection U1 as U1. injection U2 as U2. unfold rescaled in U2. rewrite U1 in U2. discriminate U2.
Qed.
Print Assumptions C31_converted_once_refuted.

(** What holds, of files in one unit: every sequence of to_inch and to_metric calls leaves the file
    as it was, or as the first conversion to the other unit made it. *)
Theorem C31_call_sequences_partial : forall fc w v l f f' us, v <> w -> all_in_unit w l -> open_file fc l = Ok f ->
  file_to v f = Ok f' -> file_seq us f = Ok (if unit_eqb (last us w) w then f else f').
Proof. intros fc w v l f f' us D. rewrite (unit_other v w D). exact (fun A O E => file_seq_ok w f f' us (open_file_in fc w l f A O) E). Qed.
Print Assumptions C31_call_sequences_partial.
(** ... the conversion succeeds, and without single-segment regions every length is converted
    exactly once, in the statements and in the object graph. *)
Theorem C31_converted_once_partial : forall fc w v l f, v <> w -> all_in_unit w l -> no_single_segment fc l -> Forall lengths_only l ->
  open_file fc l = Ok f -> exists f', file_to v f = Ok f' /\ converted v f f'.
Proof. intros fc w v l f D. rewrite (unit_other v w D). apply open_file_exact. Qed.
Print Assumptions C31_converted_once_partial.
Theorem C31_conversion_succeeds : forall fc w v l f, v <> w -> all_in_unit w l -> open_file fc l = Ok f -> is_ok (file_to v f) = true.
Proof. intros fc w v l f D. rewrite (unit_other v w D). apply open_file_converts. Qed.
Print Assumptions C31_conversion_succeeds.
Example C31_ex : exists f f', open_file no_centre metric_file = Ok f /\ file_to Inch f = Ok f' /\ converted Inch f f' /\
  file_seq [Metric; Inch; Inch; Metric] f = Ok f /\ file_seq [Inch; Metric; Inch] f = Ok f' /\ List.length (f_prims f) = 5%nat.
Proof.
  destruct (open_file no_centre metric_file) as [f|] eqn:E; [|vm_compute in E; discriminate].
  destruct (C31_converted_once_partial no_centre Metric Inch metric_file f ltac:(discriminate) metric_in_unit) as (f' & A & B); [| |exact E|].
  - intros ms s pol u IM I. assert (X : option_map (filter (fun m => match m with Fill [_] _ _ => true | _ => false end)) (image no_centre [] metric_file) = Some []) by (vm_compute; reflexivity).
    rewrite IM in X. cbn [option_map] in X. assert (Y : In (Fill [s] pol u) (filter (fun m => match m with Fill [_] _ _ => true | _ => false end) ms)) by (apply filter_In; auto).
    injection X as X. rewrite X in Y. destruct Y.
  - repeat (constructor; [cbn; auto|]); constructor.
  - exists f, f'. split; [reflexivity|]. split; [exact A|]. split; [exact B|].
    split; [exact (C31_call_sequences_partial no_centre Metric Inch metric_file f f' [Metric; Inch; Inch; Metric] ltac:(discriminate) metric_in_unit E A)|].
    split; [exact (C31_call_sequences_partial no_centre Metric Inch metric_file f f' [Inch; Metric; Inch] ltac:(discriminate) metric_in_unit E A)|].
    assert (X : rmap (fun f => List.length (f_prims f)) (open_file no_centre metric_file) = Ok 5%nat) by (vm_compute; reflexivity). rewrite E in X. now apply ok_inj in X.
Qed.

(** ** C32 *)
(** The full statement is false: the offset is added to the arc centre offsets I and J too. *)
Definition arc_file : list stmt :=
  [SMO true Inch; SAD 10 (T "C") [[zq 1]]; SAp 10 false; SQuad MultiQ; coord None (Some 1%Z) (Some 1%Z) D02;
   SCoord (Some (T "G03")) (Some (zq 3)) (Some (zq 1)) (Some (zq 1)) (Some (zq 0)) D01].
Definition centres (ms : option (list mark)) : list (option (Q * Q)) :=
  match ms with Some l => map (fun m => match m with Stroke (VArc _ _ (Some c) _ _ _ _ _) => Some (this (fst c), this (snd c)) | _ => None end) l | None => [] end.
Theorem C32_offset_translates_refuted : exists d ms f, equivariant no_centre /\ positioned arc_file /\
  open_file no_centre arc_file = Ok f /\ image no_centre [] arc_file = Some ms /\ Forall centred ms /\
  image no_centre [] (map (offset_stmt d) arc_file) <> Some (map (translate d) ms).
Proof.
  exists (zq 10, zq 20). destruct (image no_centre [] arc_file) as [ms|] eqn:E; [|vm_compute in E; discriminate].
  destruct (open_file no_centre arc_file) as [f|] eqn:O; [|vm_compute in O; discriminate]. exists ms, f.
  split; [intros ? ? ? ? ?; reflexivity|]. split.
  { exists [SMO true Inch; SAD 10 (T "C") [[zq 1]]; SAp 10 false; SQuad MultiQ]. do 4 eexists. split; [reflexivity|]. repeat constructor. }
  split; [reflexivity|]. split; [reflexivity|]. split.
  - assert (X : option_map (List.length (A := mark)) (image no_centre [] arc_file) = Some 1%nat) by (vm_compute; reflexivity).
    assert (Y : centres (image no_centre [] arc_file) = [Some (2 # 1, 1 # 1)%Q]) by (vm_compute; reflexivity).
    rewrite E in X, Y. injection X as X. destruct ms as [|m [|? ?]]; try discriminate. repeat constructor. cbn in Y. injection Y as Y.
    destruct m as [s| |]; try discriminate. destruct s as [|? ? c]; cbn in *; auto. destruct c; [exact I|discriminate].
  - intros H. assert (X : centres (image no_centre [] (map (offset_stmt (zq 10, zq 20)) arc_file)) = [Some (22 # 1, 41 # 1)%Q]) by (vm_compute; reflexivity).
    assert (Y : centres (option_map (map (translate (zq 10, zq 20))) (image no_centre [] arc_file)) = [Some (12 # 1, 21 # 1)%Q]) by (vm_compute; reflexivity).
    rewrite H in X. rewrite E in Y. cbn [option_map] in Y. rewrite X in Y. discriminate Y.
Qed.
Print Assumptions C32_offset_translates_refuted.
(** It is false of files that start from the implicit origin, too: the first coordinate, when
    omitted, is not moved. *)
Definition origin_file : list stmt := [SMO true Inch; SAD 10 (T "C") [[zq 1]]; SAp 10 false; coord None (Some 5%Z) None D01].
Theorem C32_implicit_origin_refuted : exists d ms, Forall no_offsets origin_file /\ image no_centre [] origin_file = Some ms /\
  Forall centred ms /\ image no_centre [] (map (offset_stmt d) origin_file) <> Some (map (translate d) ms).
Proof.
  exists (zq 10, zq 20). destruct (image no_centre [] origin_file) as [ms|] eqn:E; [|vm_compute in E; discriminate]. exists ms.
  split; [repeat constructor|]. split; [reflexivity|].
  set (ends := fun o : option (list mark) => match o with Some [Stroke (VLine a b _ _ _)] => map this [fst a; snd a; fst b; snd b] | _ => [] end).
  assert (Y : ends (option_map (map (translate (zq 10, zq 20))) (image no_centre [] origin_file)) = [10 # 1; 20 # 1; 15 # 1; 20 # 1]%Q) by (vm_compute; reflexivity).
  split.
  - rewrite E in Y. destruct ms as [|[s| |] [|? ?]]; try discriminate. destruct s; [repeat constructor|discriminate].
  - intros H. assert (X : ends (image no_centre [] (map (offset_stmt (zq 10, zq 20)) origin_file)) = [0 # 1; 0 # 1; 15 # 1; 0 # 1]%Q) by (vm_compute; reflexivity).
    rewrite H in X. rewrite E in Y. cbn [option_map] in Y. rewrite X in Y. discriminate Y.
Qed.
Print Assumptions C32_implicit_origin_refuted.
(** What holds, of files without I and J whose first move gives both coordinates: the offset file's
    statements evaluate to the translated image, and to exactly the object graph that offsetting
    the primitives gives. *)
Theorem C32_offset_translates_partial : forall d fc l f ms, equivariant fc -> positioned l -> Forall no_offsets l ->
  open_file fc l = Ok f -> image fc [] l = Some ms -> Forall centred ms ->
  exists f', file_offset d f = Ok f' /\ open_file fc (map fst (f_stmts f')) = Ok f' /\
    image fc [] (map fst (f_stmts f')) = Some (map (translate d) ms).
Proof. exact offset_file. Qed.
Print Assumptions C32_offset_translates_partial.
Example C32_ex : positioned metric_file /\ Forall no_offsets metric_file /\ is_ok (open_file no_centre metric_file) = true /\
  exists ms, image no_centre [] metric_file = Some ms /\ Forall centred ms /\ List.length ms = 5%nat.
Proof.
  split.
  { exists (firstn 7 metric_file). do 4 eexists. split; [reflexivity|]. repeat constructor. }
  split; [repeat constructor|]. split; [exact metric_opens|].
  set (ok := fun m => match m with Stroke (VArc _ _ None _ _ _ _ _) => false | Fill l _ _ => forallb (fun s => match s with VArc _ _ None _ _ _ _ _ => false | _ => true end) l | _ => true end).
  assert (Y : option_map (fun l => (forallb ok l, List.length l)) (image no_centre [] metric_file) = Some (true, 5%nat)) by (vm_compute; reflexivity).
  destruct (image no_centre [] metric_file) as [ms|]; [|discriminate]. exists ms. injection Y as Y L. split; [reflexivity|]. split; [|exact L].
  rewrite forallb_forall in Y. apply Forall_forall. intros m I. specialize (Y m I). destruct m as [s|l pol u|o]; cbn in *; auto.
  - destruct s as [|? ? c]; cbn; auto. destruct c; [exact Logic.I|discriminate].
  - rewrite forallb_forall in Y. apply Forall_forall. intros s J. specialize (Y s J). destruct s as [|? ? c]; cbn; auto. destruct c; [exact Logic.I|discriminate].
Qed.

(** ** C33 *)
(** The full statement is false: the number of vertices and the rotation of a polygon aperture, and
    the factors of a scale-factor statement, are converted like lengths. *)
Theorem C33_counts_and_angles_refuted :
  fst (convert_stmt Metric (SAD 10 (T "P") [[zq 2; zq 5; zq 10]], Inch)) <> in_other_unit Metric (SAD 10 (T "P") [[zq 2; zq 5; zq 10]]) /\
  fst (convert_stmt Metric (SSF (Some 1) (Some 1), Inch)) <> in_other_unit Metric (SSF (Some 1) (Some 1)).
Proof.
  split; intros H.
  - assert (X : match fst (convert_stmt Metric (SAD 10 (T "P") [[zq 2; zq 5; zq 10]], Inch)) with SAD _ _ [[_; n; _]] => this n | _ => 0%Q end = 127 # 1) by (vm_compute; reflexivity).
    rewrite H in X. vm_compute in X. discriminate X.
  - assert (X : match fst (convert_stmt Metric (SSF (Some 1) (Some 1), Inch)) with SSF (Some a) _ => this a | _ => 0%Q end = 127 # 5) by (vm_compute; reflexivity).
    rewrite H in X. vm_compute in X. discriminate X.
Qed.
Print Assumptions C33_counts_and_angles_refuted.
(** What holds: circle, rectangle and obround apertures, coordinates, offsets and units are
    converted as they should, and every statement without lengths is left alone. *)
Theorem C33_lengths_only_partial : forall u w s, w <> u -> lengths_only s -> fst (convert_stmt u (s, w)) = in_other_unit u s.
Proof. intros u w s D. rewrite (unit_other w u D). apply convert_stmt_exact. Qed.
Print Assumptions C33_lengths_only_partial.
(** A statement already in the unit is left alone, whatever it is. *)
Theorem C33_idle : forall u s, (forall p m, s <> SMO p m) -> fst (convert_stmt u (s, u)) = s.
Proof. exact convert_stmt_idle. Qed.
Print Assumptions C33_idle.
Example C33_ex : lengths_only (SAD 10 (T "R") [[zq 1; zq 2]]) /\
  match fst (convert_stmt Metric (SAD 10 (T "R") [[zq 1; zq 2]], Inch)) with SAD 10 _ [[a; b]] => (this a, this b) = (127 # 5, 254 # 5)%Q | _ => False end.
Proof. split; [right; now left|vm_compute; reflexivity]. Qed.
