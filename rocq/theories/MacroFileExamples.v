(** Files with aperture macros, for the examples of PropMacroFile.v. *)
From Coq Require Import Lia.
From Verif Require Import PyBase QcLib NumModel NumSpec FloatCodec MacroModel GerberText GerberTextSpec GerberEval GerberEvalSpec AmModel AmSpec AmExamples WriterExamples AmRenderSpec
  MacroFileModel MacroFileSpec MacroFileProofs.
Open Scope list_scope.

Definition lines_of (l : list string) : text := List.concat (map (fun s => T s ++ [nl]) l).
Definition no_files : filesys := fun _ => Err IOError.
Definition macro_sample : text := lines_of
  ["%FSLAX24Y24*%"; "%MOIN*%"; "%AMSPARE*1,1,3,0,0*%"; "%AMDISC*1,1,$1,0,0*%"; "%ADD10DISC,0.5*%"; "%ADD11C,0.25*%"; "%ADD12DISC,0.5*%";
   "D10*"; "X0Y0D03*"; "X30000*"; "D11*"; "X10000Y20000D02*"; "X20000D01*"; "D12*"; "Y5000D03*"; "M02*"]%string.
Definition macro_sample_again : text := lines_of
  ["%FSLAX24Y24*%"; "%MOIN*%"; "%AMSPARE*%"; "%AMDISC*1,1,0.5,0.0,0.0*%"; "%ADD10DISC,0.5*%"; "%ADD11C,0.25*%"; "%ADD12DISC,0.5*%";
   "D10*"; "X0Y0D03*"; "X30000D03*"; "D11*"; "X10000Y20000D02*"; "X20000D01*"; "D12*"; "Y5000D03*"; "M02*"]%string.
Definition two_discs : text := lines_of
  ["%FSLAX24Y24*%"; "%MOIN*%"; "%AMDISC*1,1,$1,0,0*%"; "%ADD10DISC,1*%"; "%ADD11DISC,2*%"; "D10*"; "X0Y0D03*"; "D11*"; "X30000Y0D03*"; "M02*"]%string.
Definition two_discs_again : text := lines_of
  ["%FSLAX24Y24*%"; "%MOIN*%"; "%AMDISC*1,1,2.0,0.0,0.0*%"; "%ADD10DISC,1*%"; "%ADD11DISC,2*%"; "D10*"; "X0Y0D03*"; "D11*"; "X30000Y0D03*"; "M02*"]%string.
Definition no_disc : text := lines_of
  ["%FSLAX24Y24*%"; "%MOIN*%"; "%AMNONE*$2=1*%"; "%ADD10NONE,1*%"; "M02*"]%string.
Definition inch24' : pset := mkPset Leading (2, 4)%nat true Inch.

Lemma inch24_ok : announceable inch24'.
Proof. split; [discriminate|]. unfold usable_format. cbn. lia. Qed.
Ltac each_line := repeat match goal with |- Forall _ (_ :: _) => apply Forall_cons | |- Forall _ [] => apply Forall_nil end.
Ltac on_grid_at := cbn [opt_on_grid]; match goal with |- True => exact I | |- on_grid _ ?v => let z := eval vm_compute in (Qnum (this (v * zq 10000)%Qc)) in
   exists z; split; [apply Qc_is_canon; vm_compute; reflexivity|vm_compute; reflexivity] end.
Ltac digits_at := constructor; [|constructor]; match goal with |- at_most_digits _ ?v => let z := eval vm_compute in (Qnum (this (v * zq 100)%Qc)) in
   exists z, 2%nat, 0%nat; split; [reflexivity|apply Qc_is_canon; vm_compute; reflexivity] end.
Ltac among := cbn; repeat (first [left; reflexivity | right]).
Ltac good_name := split; [among|]; split; [discriminate|]; each_line; among.
Ltac writable_line := cbn [rest_writable]; first
  [ apply LW_stmt, (W_format inch24')
  | apply LW_stmt, W_units
  | good_name
  | apply LW_stmt, W_define_circle; [lia|digits_at]
  | apply LW_stmt, W_define_macro; [lia|good_name|digits_at|discriminate]
  | apply LW_stmt, W_aperture; lia
  | apply LW_stmt, W_eof
  | apply LW_stmt, W_coord; [first [exact I|among]|first [exact I|among]|on_grid_at|on_grid_at|on_grid_at|on_grid_at|discriminate] ].
Ltac define_all := cbn [definitions_ok]; repeat match goal with
  | |- _ /\ _ => split
  | |- True => exact I
  | |- exists i, read_macro _ = Ok i => eexists; vm_compute; reflexivity
  | |- exists dims rest sh, _ = dims :: rest /\ _ => do 3 eexists; split; [reflexivity|vm_compute; reflexivity]
  end.
Definition half_disc : amprim := ACircle true (dbl 5 1) (dbl 0 0, dbl 0 0).
Lemma half_disc_ok : prim_writable half_disc.
Proof. split; [plain_n|]. split; plain_n. Qed.

Lemma macro_sample_ok : exists l st ms, parse_text no_files macro_sample = Ok (l, st) /\ announceable st /\ Forall (rest_writable st) l /\
  format_before_coords l /\ definitions_ok [] l /\ image no_centre [] l = Some ms /\ List.length ms = 4%nat /\ one_shape_each l.
Proof.
  do 3 eexists. split; [vm_compute; reflexivity|]. split; [exact inch24_ok|]. split; [each_line; writable_line|]. split; [exact I|]. split; [define_all|].
  split; [vm_compute; reflexivity|]. split; [reflexivity|]. cbn [one_shape_each made_from]. split; [left; reflexivity|]. split; [|exact I].
  right. eexists. exists [half_disc]. split; [vm_compute; reflexivity|]. split; [discriminate|]. split; [constructor; [exact half_disc_ok|constructor]|].
  assert (E : forall a b c d e f, a = d -> b = e -> c = f -> Ok [ACircle true a (b, c)] = Ok [ACircle true d (e, f)]) by (intros; now subst).
  match goal with |- Forall ?P ?l => let l' := eval vm_compute in l in change (Forall P l') end.
  each_line; (etransitivity; [vm_compute; reflexivity|apply E; apply Qc_is_canon; vm_compute; reflexivity]).
Qed.
Lemma macro_sample_rewritten : rewritten no_centre no_files macro_sample = Ok macro_sample_again.
Proof. vm_compute. reflexivity. Qed.

(** The primitives of a flash, as they are written. *)
Definition prims_text (m : mark) : option (list text) :=
  match m with Stamp (mkObj (ShMacro l) _ _ _) => match primitives_of l with Ok ps => Some (map prim_to_gerber ps) | Err _ => None end | _ => None end.
Lemma same_text a b : same_mark a b -> prims_text a = prims_text b.
Proof.
  destruct a as [| |[s p q u]], b as [| |[s' p' q' u']]; try contradiction; try reflexivity. intros (S & _). cbn [o_shape] in S. cbn [prims_text].
  destruct S as [->|(l & k & ps & -> & -> & A & B)]; [reflexivity|]. now rewrite A, B.
Qed.
Lemma two_discs_refuted : exists l st ms t, parse_text no_files two_discs = Ok (l, st) /\ announceable st /\ Forall (rest_writable st) l /\
  format_before_coords l /\ definitions_ok [] l /\ image no_centre [] l = Some ms /\ rewritten no_centre no_files two_discs = Ok t /\
  forall l' st' ms', parse_text no_files t = Ok (l', st') -> image no_centre [] l' = Some ms' -> ~ Forall2 same_mark ms ms'.
Proof.
  do 3 eexists. exists two_discs_again. split; [vm_compute; reflexivity|]. split; [exact inch24_ok|]. split; [each_line; writable_line|]. split; [exact I|]. split; [define_all|].
  split; [vm_compute; reflexivity|]. split; [vm_compute; reflexivity|]. intros l' st' ms' P Im F.
  assert (X : match parse_text no_files two_discs_again with Ok (l, _) => match image no_centre [] l with Some ms => map prims_text ms | None => [] end | Err _ => [] end
    = [Some [T "1,1,2.0,0.0,0.0*"]; Some [T "1,1,2.0,0.0,0.0*"]]) by (vm_compute; reflexivity).
  rewrite P, Im in X. inversion F as [|a b m1 m2 S _]; subst. apply same_text in S. cbn [map] in X. injection X as X _. rewrite X in S. vm_compute in S. discriminate S.
Qed.
Lemma no_disc_refuted : exists l st ms t l' st', parse_text no_files no_disc = Ok (l, st) /\ announceable st /\ Forall (rest_writable st) l /\
  format_before_coords l /\ definitions_ok [] l /\ image no_centre [] l = Some ms /\ rewritten no_centre no_files no_disc = Ok t /\
  parse_text no_files t = Ok (l', st') /\ evaluate_all no_centre g_init l' = Err KeyError.
Proof.
  do 6 eexists. split; [vm_compute; reflexivity|]. split; [exact inch24_ok|]. split; [each_line; writable_line|]. split; [exact I|]. split; [define_all|].
  split; [vm_compute; reflexivity|]. split; [vm_compute; reflexivity|]. split; [vm_compute; reflexivity|]. vm_compute. reflexivity.
Qed.
