(** Properties of Gerber files whose numbers do not fit the number format exactly. *)
From Verif Require HeapProofs.
From Verif Require Import NumProofs RoundSpec RoundText RoundImage RoundFile ScaleSpec PropScale.
Open Scope list_scope.
Open Scope Qc_scope.

(** ** C129 *)
Theorem C129_rounded_image : forall st l, announceable st -> Forall (fitting st) l -> format_before_coords l ->
  exists t l', write_file st l = Ok t /\ write_file st l' = Ok t /\ (forall fs, parse_text fs t = Ok (l', fold_left after l pset0)) /\
    Forall2 (rounded (half_ulp (snd (p_fmt st)))) l l' /\
    forall fc, definitions_ok [] l ->
      match image fc [] l with
      | Some ms => exists g' k' ms', evaluate_all fc g_init l' = Ok (g', k') /\ shown g' = map Some ms' /\ Forall2 (near (half_ulp (snd (p_fmt st)))) ms ms'
      | None => evaluate_all fc g_init l' = Err KeyError
      end.
Proof. exact C129_lemma. Qed.
Print Assumptions C129_rounded_image.

(** A file with coordinates and dimensions that have no finite decimal expansion. *)
Definition st24 : pset := mkPset Leading (2, 4)%nat true Metric.
Definition third : Qc := Q2Qc (1 # 3).
Definition thirds : list stmt :=
  [SFS Leading true (2, 4)%nat; SMO true Metric; SAD 10 (T "C") [[third]]; SAD 11 (T "P") [[third; zq 6]]; SAp 10 false;
   SCoord None (Some third) (Some (- third)) None None (Some (T "D02")); SCoord (Some (T "G01")) (Some (zq 20 + third)) None None None (Some (T "D01"));
   SAp 11 false; SCoord None None (Some third) None None (Some (T "D03")); SEof].
Lemma in_functions x : In x functions -> from_list functions (Some x). Proof. auto. Qed.
Lemma in_operations x : In x operations -> from_list operations (Some x). Proof. auto. Qed.
Example C129_ex : announceable st24 /\ Forall (fitting st24) thirds /\ format_before_coords thirds /\ definitions_ok [] thirds /\
  (forall fc, option_map (@List.length mark) (image fc [] thirds) = Some 2%nat) /\
  write_file st24 thirds = Ok (T "%FSLAX24Y24*%" ++ nl :: T "%MOMM*%" ++ nl :: T "%ADD10C,0.3333*%" ++ nl :: T "%ADD11P,0.3333X6*%" ++ nl :: T "D10*" ++ nl ::
    T "X3333Y-3333D02*" ++ nl :: T "G01X203333D01*" ++ nl :: T "D11*" ++ nl :: T "Y3333D03*" ++ nl :: T "M02*" ++ [nl]).
Proof.
  split. { split; [discriminate|]. cbn. repeat split; lia. }
  split.
  { unfold thirds. repeat match goal with |- Forall _ (_ :: _) => apply Forall_cons | |- Forall _ [] => apply Forall_nil end;
      try (apply Fit_other; [|discriminate|discriminate]; apply LW_stmt).
    - apply (W_format st24).
    - apply W_units.
    - apply Fit_define; [lia|now left|discriminate|discriminate].
    - apply Fit_define; [lia|now right; right; right; left|discriminate|]. intros _. exists 6%Z. split; [lia|reflexivity].
    - apply W_aperture. lia.
    - apply Fit_coord; try discriminate; try exact I; solve [vm_compute; auto 10].
    - apply Fit_coord; try discriminate; try exact I; solve [vm_compute; auto 10].
    - apply W_aperture. lia.
    - apply Fit_coord; try discriminate; try exact I; solve [vm_compute; auto 10].
    - apply W_eof. }
  split; [exact I|]. split. { cbn. repeat split; eexists _, [], _; split; reflexivity. }
  split; [intros fc; reflexivity|vm_compute; reflexivity].
Qed.

(** ** C130 *)
Theorem C130_converted_file : forall fc w v st l f f' ms, v <> w -> proportional fc -> declared w l -> Forall plain_apertures l ->
  open_file fc l = Ok f -> image fc [] l = Some ms -> file_to v f = Ok f' ->
  announceable st -> Forall (fitting st) (map fst (f_stmts f')) -> format_before_coords (map fst (f_stmts f')) ->
  exists t l' ps, write_file st (map fst (f_stmts f')) = Ok t /\ (forall fs, parse_text fs t = Ok (l', ps)) /\
    exists g' k' ms', evaluate_all fc g_init l' = Ok (g', k') /\ shown g' = map Some ms' /\
      Forall2 (near (half_ulp (snd (p_fmt st)))) (map (enlarge (factor v) v) ms) ms'.
Proof. intros fc w v st l f f' ms D. rewrite (HeapProofs.unit_other v w D). apply C130_lemma. Qed.
Print Assumptions C130_converted_file.

(** A line of 10 mm is 0.393700787... inches long; the file says 0.3937. *)
Definition mm_file : list stmt :=
  [SFS Leading true (2, 4)%nat; SMO true Metric; SAD 10 (T "C") [[zq 1]]; SAp 10 false; to 0 0 "D02"; to 10 0 "D01"; SEof].
Definition inch_stmts : list stmt := match (do f <- open_file fc0 mm_file; file_to Inch f) with Ok f' => map fst (f_stmts f') | Err _ => [] end.
Example C130_ex : declared Metric mm_file /\ Forall plain_apertures mm_file /\
  exists f f' ms, open_file fc0 mm_file = Ok f /\ image fc0 [] mm_file = Some ms /\ file_to Inch f = Ok f' /\ List.length ms = 1%nat /\
    announceable st24 /\ Forall (fitting st24) (map fst (f_stmts f')) /\ format_before_coords (map fst (f_stmts f')) /\
    write_file st24 (map fst (f_stmts f')) = Ok (T "%FSLAX24Y24*%" ++ nl :: T "%MOIN*%" ++ nl :: T "%ADD10C,0.03937*%" ++ nl :: T "D10*" ++ nl ::
      T "X0Y0D02*" ++ nl :: T "X3937Y0D01*" ++ nl :: T "M02*" ++ [nl]).
Proof.
  split. { split; [repeat constructor; discriminate|]. exists [SFS Leading true (2, 4)%nat], (skipn 2 mm_file). split; [reflexivity|repeat constructor]. }
  split. { repeat (constructor; [cbn; auto|]). constructor. }
  assert (A : announceable st24) by apply C129_ex.
  destruct (open_file fc0 mm_file) as [f|] eqn:E; [|vm_compute in E; discriminate].
  assert (Y : option_map (@List.length mark) (image fc0 [] mm_file) = Some 1%nat) by (vm_compute; reflexivity).
  destruct (image fc0 [] mm_file) as [ms|]; [|discriminate Y]. injection Y as Y.
  assert (X : (do f <- open_file fc0 mm_file; do _ <- file_to Inch f; Ok true) = Ok true) by (vm_compute; reflexivity).
  assert (S : inch_stmts = match file_to Inch f with Ok f' => map fst (f_stmts f') | Err _ => [] end) by (unfold inch_stmts; now rewrite E).
  rewrite E in X. cbn [bind] in X. destruct (file_to Inch f) as [f'|] eqn:F; [|discriminate X]. exists f, f', ms. rewrite <- S.
  repeat (split; [first [reflexivity|assumption]|]). split; [|split].
  - clear -A. assert (Q : exists x y z, inch_stmts = [SFS Leading true (2, 4)%nat; SMO true Inch; SAD 10 (T "C") [[x]]; SAp 10 false; SCoord None (Some y) (Some y) None None (Some (T "D02")); SCoord None (Some z) (Some y) None None (Some (T "D01")); SEof] /\
      fits 2 4 x /\ fits 2 4 y /\ fits 2 4 z).
    { exists (Q2Qc (5 # 127)), (Q2Qc (0 # 127)), (Q2Qc (50 # 127)). split; [|repeat split; now vm_compute]. vm_compute. reflexivity. }
    destruct Q as (x & y & z & -> & Fx & Fy & Fz).
    repeat match goal with |- Forall _ (_ :: _) => apply Forall_cons | |- Forall _ [] => apply Forall_nil end;
      try (apply Fit_other; [|discriminate|discriminate]; apply LW_stmt).
    + apply (W_format st24).
    + apply W_units.
    + apply Fit_define; [lia|now left|discriminate|discriminate].
    + apply W_aperture. lia.
    + apply Fit_coord; try discriminate; try exact I; try assumption; vm_compute; auto 10.
    + apply Fit_coord; try discriminate; try exact I; try assumption; vm_compute; auto 10.
    + apply W_eof.
  - vm_compute. exact I.
  - vm_compute. reflexivity.
Qed.
