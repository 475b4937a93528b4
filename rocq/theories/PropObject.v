(** The primitives of a Gerber file, compared with its image: C165. *)
From Verif Require Import ObjectSpec ObjectProofs.
From Verif Require HeapProofs GerberConvProofs.
Open Scope list_scope.
Open Scope Qc_scope.

(** As read: one object for each mark of the image, in order, with its values. *)
Theorem C165_opened : forall fc l f ms, open_file fc l = Ok f -> image fc [] l = Some ms -> Forall2 (holds (f_heap f)) (f_prims f) ms.
Proof. intros fc l f ms H IM. eapply Forall2_weaken; [apply is_mark_holds|]. exact (opened_is fc l f ms H IM). Qed.
Print Assumptions C165_opened.
(** Converted: the same marks with every length multiplied, polygons included. *)
Theorem C165_converted_partial : forall fc w v l f f' ms, v <> w -> all_in_unit w l -> no_single_segment fc l ->
  open_file fc l = Ok f -> image fc [] l = Some ms -> file_to v f = Ok f' ->
  Forall2 (holds (f_heap f')) (f_prims f') (map (enlarge (factor v) v) ms).
Proof.
  intros fc w v l f f' ms D A N H IM C. eapply Forall2_weaken; [apply is_mark_holds|]. rewrite (HeapProofs.unit_other v w D) in *.
  exact (converted_is fc w l f f' ms A N H IM C).
Qed.
Print Assumptions C165_converted_partial.
(** Moved: the same marks moved. *)
Theorem C165_moved_partial : forall d fc l f f' ms, equivariant fc -> positioned l -> Forall no_offsets l ->
  open_file fc l = Ok f -> image fc [] l = Some ms -> Forall centred ms -> file_offset d f = Ok f' ->
  Forall2 (holds (f_heap f')) (f_prims f') (map (translate d) ms).
Proof.
  intros d fc l f f' ms Q P N H IM C O. destruct (GerberConvProofs.offset_file d fc l f ms Q P N H IM C) as (f1 & O1 & H1 & I1).
  rewrite O in O1. injection O1 as <-. exact (C165_opened fc _ f' _ H1 I1).
Qed.
Print Assumptions C165_moved_partial.

Definition fc0 : centre_fun := fun _ a _ o => Some (fst a + fst o, snd a + snd o).
Definition to (x y : Z) (op : string) : stmt := SCoord None (Some (zq x)) (Some (zq y)) None None (Some (T op)).
(** The full statement is false of conversion: the segment of a region with one segment stays as it was. *)
Definition sliver : list stmt := [SMO true Inch; SReg On; to 0 0 "D02"; to 1 1 "D01"; SReg Off].
Theorem C165_single_segment_refuted : exists f f' ms, all_in_unit Inch sliver /\ open_file fc0 sliver = Ok f /\
  image fc0 [] sliver = Some ms /\ file_to Metric f = Ok f' /\
  ~ Forall2 (holds (f_heap f')) (f_prims f') (map (enlarge (factor Metric) Metric) ms).
Proof.
  set (seen := fun h => map (fun l => option_map po_units (hget h l)) [1%nat; 2%nat]).
  assert (X : (do f <- open_file fc0 sliver; do f' <- file_to Metric f; Ok (f_prims f', seen (f_heap f'), match attr (f_heap f') 2%nat "primitives" with Some (VSeq false [VRef m]) => Some m | _ => None end)) =
    Ok ([2%nat], [Some (Some Inch); Some (Some Metric)], Some 1%nat)) by (vm_compute; reflexivity).
  assert (Y : match image fc0 [] sliver with Some [Fill [VLine _ _ _ _ _] _ _] => true | _ => false end = true) by (vm_compute; reflexivity).
  destruct (open_file fc0 sliver) as [f|] eqn:E; [|discriminate]. cbn [bind] in X. destruct (file_to Metric f) as [f'|] eqn:E'; [|discriminate]. cbn [bind] in X.
  destruct (image fc0 [] sliver) as [ms|] eqn:IM; [|discriminate]. exists f, f', ms.
  split; [split; [repeat constructor|now left]|]. split; [reflexivity|]. split; [reflexivity|]. split; [exact E'|]. intros F.
  destruct ms as [|[s|[|[a b ap pol w|] [|? ?]] pol' u|o] [|? ?]]; try discriminate.
  injection X as X1 X2 _ X3. rewrite X1 in F. inversion F as [|? ? ? ? K _]; subst. destruct K as (_ & ls & A & G). rewrite A in X3.
  inversion G as [|x ? xs ? U R]; subst. destruct U as (U & _). inversion R; subst. cbn in X3. injection X3 as ->. unfold units_at in U. 
  change (option_map po_units (hget (f_heap f') 1%nat) = Some (Some Inch)) in X2. rewrite X2 in U. discriminate U.
Qed.
Print Assumptions C165_single_segment_refuted.

(** A line and an arc with a round aperture with a hole, a polygon flash and a region. *)
Definition body : list stmt :=
  [SAD 10 (T "C") [[zq 2; zq 1]]; SAD 11 (T "P") [[zq 4; zq 6; zq 30]]; SAp 10 false; SQuad MultiQ; to 1 1 "D02"; to 5 1 "D01";
   SCoord (Some (T "G03")) (Some (zq 6)) (Some (zq 2)) (Some (zq 1)) (Some (zq 0)) (Some (T "D01")); SAp 11 false; to 9 9 "D03";
   SReg On; to 4 4 "D02"; SCoord (Some (T "G01")) (Some (zq 8)) None None None (Some (T "D01")); to 8 8 "D01"; SReg Off].
Definition file : list stmt := SMO true Inch :: body.
(** Values of an object. *)
Definition values (f : gfile) (l : HeapModel.loc) (n : string) : list Q :=
  match attr (f_heap f) l n with Some (VNum q) => [this q] | Some (VSeq _ [VNum x; VNum y]) => [this x; this y] | _ => [] end.
Example C165_ex : all_in_unit Inch file /\ no_single_segment fc0 file /\ option_map (@List.length mark) (image fc0 [] file) = Some 4%nat /\
  (do f <- open_file fc0 file; do f' <- file_to Metric f;
   Ok (f_prims f, map (values f 0%nat) ["diameter"; "hole_diameter"]%string, map (values f 4%nat) ["start"; "end"; "center"]%string,
       map (values f' 0%nat) ["diameter"; "hole_diameter"]%string, map (values f' 2%nat) ["position"; "radius"; "sides"; "rotation"]%string)) =
  Ok ([3%nat; 4%nat; 2%nat; 7%nat], [[2 # 1]; [1 # 1]]%Q, [[5 # 1; 1 # 1]; [6 # 1; 2 # 1]; [6 # 1; 1 # 1]]%Q,
      [[254 # 5]; [127 # 5]]%Q, [[1143 # 5; 1143 # 5]; [254 # 5]; [6 # 1]; [30 # 1]]%Q).
Proof.
  split; [split; [repeat constructor; discriminate|now left]|]. split.
  { intros ms s pol u IM I. assert (X : option_map (filter (fun m => match m with Fill [_] _ _ => true | _ => false end)) (image fc0 [] file) = Some []) by (vm_compute; reflexivity).
    rewrite IM in X. cbn [option_map] in X. assert (Y : In (Fill [s] pol u) (filter (fun m => match m with Fill [_] _ _ => true | _ => false end) ms)) by (apply filter_In; auto).
    injection X as X. rewrite X in Y. destruct Y. }
  split; vm_compute; reflexivity.
Qed.
Definition moving : list stmt := [SMO true Inch; SAD 10 (T "C") [[zq 2]]; SAp 10 false; to 1 1 "D02"; to 5 1 "D01"; to 9 9 "D03"].
Example C165_moved_ex : equivariant fc0 /\ positioned moving /\ Forall no_offsets moving /\
  (exists ms, image fc0 [] moving = Some ms /\ Forall centred ms) /\
  (do f <- open_file fc0 moving; do f' <- file_offset (zq 10, zq 20) f;
   Ok (f_prims f', map (values f' 2%nat) ["start"; "end"]%string, values f' 1%nat "position", values f' 1%nat "diameter")) =
  Ok ([2%nat; 1%nat], [[11 # 1; 21 # 1]; [15 # 1; 21 # 1]]%Q, [19 # 1; 29 # 1]%Q, [2 # 1]%Q).
Proof.
  split. { intros dir a b o d. unfold fc0, plus. cbn. do 2 f_equal; ring. }
  split. { exists (firstn 3 moving). do 4 eexists. split; [reflexivity|]. repeat constructor. }
  split; [repeat constructor|]. split; [|vm_compute; reflexivity].
  assert (X : option_map (map (fun m => match m with Stroke (VLine _ _ _ _ _) | Stamp _ => true | _ => false end)) (image fc0 [] moving) = Some [true; true]) by (vm_compute; reflexivity).
  destruct (image fc0 [] moving) as [ms|]; [|discriminate]. exists ms. split; [reflexivity|]. injection X as X.
  destruct ms as [|m1 [|m2 [|? ?]]]; try discriminate. injection X as X1 X2.
  repeat constructor; [destruct m1 as [[]| |]|destruct m2 as [[]| |]]; try discriminate; exact I.
Qed.
