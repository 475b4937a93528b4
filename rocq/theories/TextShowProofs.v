(** From the text of a Gerber file to its image. *)
From Coq Require Import Lra Lia.
From Verif Require Import PyBase QcLib GeomModel GeomSpec CairoModel CairoSpec CairoProofs CairoMore CairoScale MacroGeomModel ShowModel ShowSpec ShowFile ShowMacro ShowExamples CamShowModel CamShowSpec CamShowProofs CamShowExamples SimilarExamples DrillShowModel.
From Verif Require Import NumModel GerberText GerberTextSpec GerberTextProofs PropSplit.
From Verif Require GerberEval GerberEvalSpec GerberConv.
Import ListNotations GerberEvalSpec.
Open Scope R_scope.
Open Scope list_scope.

Lemma text_shown fill fc s fs st t l ms b : announceable st -> depicts fs st include_limit t l -> format_before_coords l ->
  sensible fill -> 0 < s -> definitions_ok [] l -> image fc [] l = Some ms -> Forall fair ms -> Forall (fun m => exists q, extent m q) ms -> file_box ms b -> within 1000000 b ->
  exists img, show_text fill fc s false fs t = Ok img /\ forall p, below_tops fill s ms p -> (img (pixel s b false p) <-> shows fill ms p).
Proof.
  intros An D Fb Se S De Im F N B W. unfold show_text. rewrite (parse_text_depicts fs st t l An D Fb). cbn [bind fst]. exact (whole_shown fill fc s l ms b Se S De Im F N B W).
Qed.
Lemma text_rewritten fill fc s inv st l : announceable st -> Forall (line_writable st) l -> format_before_coords l ->
  exists t, GerberText.write_file st l = Ok t /\ forall fs, show_text fill fc s inv fs t = render_whole fill fc s inv l.
Proof.
  intros An W Fb. destruct (file_roundtrip st l An W Fb) as (t & E & P). exists t. split; [exact E|]. intro fs. unfold show_text. now rewrite P.
Qed.
Lemma text_endings fill fc s inv fs data : ~ In cr data ->
  show_text fill fc s inv fs (with_ending [cr; nl] data) = show_text fill fc s inv fs data /\ show_text fill fc s inv fs (with_ending [cr] data) = show_text fill fc s inv fs data.
Proof.
  intro N. unfold show_text, parse_text. rewrite !parse_data_eq. destruct (C18_line_endings data N) as [-> ->]. auto.
Qed.

(** ** Examples *)
Definition inch24 : pset := mkPset Leading (2, 4)%nat true Inch.
Definition dots_file : list stmt := SFS Leading true (2, 4)%nat :: two_dots.
Definition dots_text : text := T "%FSLAX24Y24*%" ++ nl :: T "%MOIN*%" ++ nl :: T "%ADD10C,2*%" ++ nl :: T "D10*" ++ nl :: T "X0Y0D03*" ++ nl :: T "X100000Y100000D03*" ++ [nl].
Definition tall_rect : list stmt := SFS Leading true (2, 4)%nat :: tall.
Lemma inch24_announceable : announceable inch24.
Proof. split; [discriminate|]. unfold NumSpec.usable_format. cbn. lia. Qed.
Ltac whole z := exists z; split; [apply Qc_is_canon; reflexivity|reflexivity].
Ltac length_of n := repeat constructor; exists n, 0%nat, 0%nat; (split; [reflexivity|apply Qc_is_canon; reflexivity]).
Ltac lines := repeat match goal with |- Forall _ (_ :: _) => apply Forall_cons | |- Forall _ [] => apply Forall_nil end.
Lemma dots_writable : Forall (line_writable inch24) dots_file /\ format_before_coords dots_file.
Proof.
  split; [|exact I]. unfold dots_file, two_dots. lines.
  - apply LW_stmt, (W_format inch24).
  - apply LW_stmt, W_units.
  - apply LW_stmt, W_define_circle; [lia|]. length_of 2%Z.
  - apply LW_stmt, W_aperture. lia.
  - apply LW_stmt, W_coord; cbn; auto 10; [whole 0%Z|whole 0%Z|discriminate].
  - apply LW_stmt, W_coord; cbn; auto 10; [whole 100000%Z|whole 100000%Z|discriminate].
Qed.
Lemma dots_written : GerberText.write_file inch24 dots_file = Ok dots_text.
Proof. vm_compute. reflexivity. Qed.
Lemma dots_depicted fs : depicts fs inch24 include_limit dots_text dots_file.
Proof. destruct (write_depicts fs inch24 inch24_announceable dots_file (proj1 dots_writable)) as (t & E & D). rewrite dots_written in E. apply ok_inj in E. now subst t. Qed.
Lemma dots_file_image : image fc0 [] dots_file = Some dots.
Proof. vm_compute. reflexivity. Qed.
Lemma dots_file_ok : definitions_ok [] dots_file.
Proof. known_definitions. Qed.

Lemma tall_rect_writable : Forall (line_writable inch24) tall_rect /\ format_before_coords tall_rect.
Proof.
  split; [|exact I]. unfold tall_rect, tall. lines.
  - apply LW_stmt, (W_format inch24).
  - apply LW_stmt, W_units.
  - apply LW_stmt, W_define_other; [lia|now left|discriminate|]. repeat constructor; [exists 2%Z|exists 4%Z]; exists 0%nat, 0%nat; (split; [reflexivity|apply Qc_is_canon; reflexivity]).
  - apply LW_stmt, W_aperture. lia.
  - apply LW_stmt, W_coord; cbn; auto 10; [whole 0%Z|whole 20000%Z|discriminate].
Qed.
Lemma tall_rect_image : image fc0 [] tall_rect = Some tall_marks.
Proof. vm_compute. reflexivity. Qed.
Lemma tall_rect_ok : definitions_ok [] tall_rect.
Proof. known_definitions. Qed.
Lemma tall_rect_opens : exists f, GerberConv.open_file fc0 tall_rect = Ok f.
Proof. destruct (GerberConv.open_file fc0 tall_rect) as [f|] eqn:E; [eauto|vm_compute in E; discriminate]. Qed.
Lemma tall_rect_cut fill img : sensible fill -> render_whole fill fc0 (5 / 8) false tall_rect = Ok img -> ~ img (pixel (5 / 8) ((-1, 1), (0, 4)) false (0, 39 / 10)).
Proof.
  intros Se R X. destruct tall_rect_opens as (f & O).
  assert (Wi : within 1000000 ((IZR 0 - IZR 2 / 2, IZR 0 + IZR 2 / 2), (IZR 2 - IZR 4 / 2, IZR 2 + IZR 4 / 2))) by (unfold within; cbn [fst snd]; lra).
  assert (In0 : inside ((IZR 0 - IZR 2 / 2, IZR 0 + IZR 2 / 2), (IZR 2 - IZR 4 / 2, IZR 2 + IZR 4 / 2)) (0, 39 / 10)) by (unfold inside; cbn [fst snd]; lra).
  pose proof (one_rect fill fc0 (5 / 8) tall_rect f 2 4 0 2 _ img (0, 39 / 10) Se ltac:(lra) O tall_rect_image eq_refl eq_refl eq_refl Wi In0 R) as H.
  replace (IZR 0 - IZR 2 / 2) with (-1) in H by lra. replace (IZR 0 + IZR 2 / 2) with 1 in H by lra. replace (IZR 2 - IZR 4 / 2) with 0 in H by lra. replace (IZR 2 + IZR 4 / 2) with 4 in H by lra.
  apply H in X. clear H. unfold clip, c_rectangle, origin_px, scale_point in X. cbn zeta in X. cbn [set_bounds scale CairoModel.origin fst snd] in X. destruct X as [_ [_ Y]].
  assert (F1 : floor (0 * (5 / 8)) = 0) by (apply (floor_is 0); lra). assert (F2 : ceil (0 * (5 / 8)) = 0) by (unfold ceil; rewrite (floor_is 0); lra).
  rewrite F1, F2 in Y. rewrite (floor_is 0 (5 / 8 * _ - 0)), (floor_is 2) in Y by lra. rewrite Rabs_right in Y by lra. lra.
Qed.
