(** Properties of macro shapes in the RS-274X writer: C107, C108, C109. *)
From Verif Require Import PyBase QcLib NumModel NumSpec MacroModel GerberText GerberTextSpec GerberEval GerberEvalSpec WriterModel WriterSpec WriterExamples AmModel AmSpec AmExamples
  AmRenderSpec AmRenderProofs AmRenderFile AmShareSpec AmShareProofs AmRenderExamples.
Open Scope Qc_scope.
Open Scope list_scope.

(** C107: two macro flashes compare as the same exactly when they have as many primitives, of the same kinds, at
    the same places up to the positions of the flashes (within half a millionth), and the dimensions that are compared
    are equal: diameter and round hole of circles; width, height, rotation and round hole of rectangles; number of
    sides and radius of polygons.
    Missing: the polarity, the aperture of lines, rectangular holes, the rotation and hole of polygons. *)
Theorem C107_compared_partial : forall k g,
  group_equivalent g k (displacement k g) = true <-> same_compared k g.
Proof. exact compared_lemma. Qed.
Print Assumptions C107_compared_partial.
(** C107: shapes that look the same compare as the same. *)
Theorem C107_same_looks : forall k g, same_looks k g -> group_equivalent g k (displacement k g) = true.
Proof. exact looks_lemma. Qed.
Print Assumptions C107_same_looks.
Example C107_moved : same_looks (hexagon 30 (at_pos 0 0)) (hexagon 30 (at_pos 50000 (-20000))) /\
  group_equivalent (hexagon 30 (at_pos 50000 (-20000))) (hexagon 30 (at_pos 0 0)) (at_pos 50000 (-20000)) = true /\
  group_equivalent (hexagon 30 (at_pos 50000 (-20000))) (hexagon 30 (at_pos 0 0)) (at_pos 50000 0) = false.
Proof.
  split; [|split; vm_compute; reflexivity]. apply Forall2_cons; [|apply Forall2_nil]. split; [|repeat split]. split; (apply near_iff; vm_compute; reflexivity).
Qed.
(** C107 in general is false: a circle and a clear one, polygons with different rotation, rectangles with
    different rectangular holes, and lines of different width compare as the same. *)
Theorem C107_compared_refuted : Forall (fun x => group_equivalent (alone (snd x)) (alone (fst x)) (displacement (alone (fst x)) (alone (snd x))) = true /\ ~ same_looks (alone (fst x)) (alone (snd x)))
  [(GCircle origin one no_holes Dark, GCircle origin one no_holes Clear);
   (GPoly origin 6 one 0 no_holes Dark, GPoly origin 6 one (Q2Qc 30) no_holes Dark);
   (GRect origin one one 0 wide Dark, GRect origin one one 0 square Dark);
   (GLine origin (one, 0) (FCircle one no_holes) Dark, GLine origin (one, 0) (FCircle (Q2Qc 2) no_holes) Dark)].
Proof. exact compared_samples. Qed.
Print Assumptions C107_compared_refuted.

(** C108: a list of primitives and macro flashes, whose macros draw something and can be written exactly, is
    written to a file that, read and evaluated, shows the same in the same order: every macro flash as a flash of an
    aperture with the primitives of its macro, at its position and with its polarity.
    Missing: macros that compare as the same although they differ (C107), and macros without primitives to draw. *)
Theorem C108_macro_file_partial : forall fc digits o st items,
  announceable st -> name_digits digits -> Forall (item_supported fc o) items -> Forall (gitem_exact st) items ->
  told_apart (groups items) -> file_shows fc digits o st items.
Proof. exact shows_lemma. Qed.
Print Assumptions C108_macro_file_partial.
Example C108_sample : announceable metric34 /\ name_digits two_digits /\ Forall (item_supported no_centre default_options) sample_items /\
  Forall (gitem_exact metric34) sample_items /\ told_apart (groups sample_items) /\
  option_map (map (option_map (map string_of_list_ascii))) (marks_written no_centre two_digits default_options metric34 sample_items) =
    Some [Some ["1,1,1.5,0.0,0.0*"%string]; Some []; Some ["5,1,6,0,0,2,30.0*"%string]; Some ["1,1,1.5,0.0,0.0*"%string]].
Proof.
  split; [split; [discriminate|cbn; unfold usable_format; lia]|]. split; [exact sample_digits|]. split; [exact sample_is_supported|]. split; [exact sample_is_exact|].
  split; [exact sample_told_apart|]. vm_compute. reflexivity.
Qed.
(** C108: with macros too the D-codes defined are distinct and at least 10, and what is selected was defined before. *)
Theorem C108_codes : forall digits o st items c, render_list digits o items (new_renderer st) = Ok c ->
  NoDup (codes (statements (fst c))) /\ Forall (fun d => (10 <= d)%Z) (codes (statements (fst c))) /\
  (forall before d x after, statements (fst c) = before ++ SAp d x :: after -> In d (codes before)).
Proof. exact macro_codes. Qed.
Print Assumptions C108_codes.
(** C108: a macro flash that was rendered before, moved exactly, adds no definition. *)
Theorem C108_reused : forall digits o st items1 comment k items2 comment' g c c',
  is_moved k g -> hash_amacro digits g = hash_amacro digits k ->
  render_list digits o (items1 ++ Macro comment k :: items2) (new_renderer st) = Ok c ->
  render_one digits o (Macro comment' g) c = Ok c' -> c_header (fst c') = c_header (fst c).
Proof. exact reuse_lemma. Qed.
Print Assumptions C108_reused.
Example C108_sample_codes : match render_list two_digits default_options sample_items (new_renderer metric34) with
  | Ok c => codes (statements (fst c)) | Err _ => [] end = [10; 11; 12]%Z.
Proof. vm_compute. reflexivity. Qed.
(** C108 in general is false: of two macros that differ in the exposure, or two polygons that differ in rotation, the
    second is written as the first; a macro without anything to draw gets a name too short to be read. *)
Theorem C108_macro_file_refuted :
  ~ file_shows no_centre two_digits default_options metric34 [Macro None (disc true origin); Macro None (disc false origin)] /\
  ~ file_shows no_centre two_digits default_options metric34 [Macro None (hexagon 0 origin); Macro None (hexagon 30 origin)] /\
  ~ file_shows no_centre two_digits default_options metric34 [Macro None (moire origin)].
Proof. exact not_shown_samples. Qed.
Print Assumptions C108_macro_file_refuted.

(** C109: what the statement of a flashed macro will write are the primitives of the last aperture that was made from
    the same macro statement, whichever aperture is flashed. *)
Theorem C109_shared : forall events s, sh_run sh_init events = Ok s -> sh_flashes s = flashes_after [] events.
Proof. exact shared_lemma. Qed.
Print Assumptions C109_shared.
(** C109: when no macro statement is used for two apertures, every flash carries the primitives of the aperture
    flashed. Missing: macros that are used for several apertures. *)
Theorem C109_own_primitives_partial : forall events s, sh_run sh_init events = Ok s -> NoDup (uses (rev events)) ->
  forall own written, In (Some (own, written)) (sh_flashes s) -> written = own.
Proof. exact once_lemma. Qed.
Print Assumptions C109_own_primitives_partial.
Example C109_once : uses (rev [EvMacro (T "DISC") disc_macro; EvAperture 10 (T "DISC") [zq 1]; EvMacro (T "DISC") disc_macro; EvAperture 11 (T "DISC") [zq 2]; EvSelect 10; EvFlash]) = [2; 0]%nat /\
  flash_texts [EvMacro (T "DISC") disc_macro; EvAperture 10 (T "DISC") [zq 1]; EvMacro (T "DISC") disc_macro; EvAperture 11 (T "DISC") [zq 2]; EvSelect 10; EvFlash] =
    Some [Some ([T "1,1,1.0,0.0,0.0*"], [T "1,1,1.0,0.0,0.0*"])].
Proof. split; vm_compute; reflexivity. Qed.
(** C109 in general is false: of two apertures of different size made from one macro, the flash of the first carries
    the primitives of the second. *)
Theorem C109_own_primitives_refuted : exists s own written, sh_run sh_init two_sizes = Ok s /\ In (Some (own, written)) (sh_flashes s) /\
  map prim_to_gerber own = [T "1,1,1.0,0.0,0.0*"] /\ map prim_to_gerber written = [T "1,1,2.0,0.0,0.0*"].
Proof. exact two_sizes_lemma. Qed.
Print Assumptions C109_own_primitives_refuted.
