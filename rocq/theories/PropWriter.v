(** Properties of the RS-274X writer: C34, C35, C78. *)
From Verif Require Import PyBase QcLib NumModel NumSpec MacroModel GerberText GerberTextSpec GerberEval GerberEvalSpec WriterModel WriterSpec WriterProofs WriterRound WriterFile WriterExamples.
Open Scope Qc_scope.
Open Scope list_scope.

(** C34: lists of lines, arcs, regions and flashes that [supported] describes are rendered without error,
    and evaluating the statements gives the same primitives in the same order: same points, shape and hole of
    the aperture, polarity; in inches, whatever the units of the context.
    Missing: see C34_refuted for what is not read back as it was. *)
Theorem C34_render_round_trip_partial : forall fc o st items, Forall (supported fc o) items -> round_trips fc o st Inch items.
Proof. exact round_trip_lemma. Qed.
Print Assumptions C34_render_round_trip_partial.
Example C34_drawing : Forall (supported no_centre default_options) drawing /\
  option_map (fun c => List.length (statements c)) (match render_all default_options drawing (new_context settings34) with Ok c => Some c | Err _ => None end) = Some 27%nat.
Proof. split; [exact drawing_supported|vm_compute; reflexivity]. Qed.

(** C34 in general is false: a line of length zero (a dot) is lost; the hole of a rectangular aperture is lost
    for lines; a turned rectangle is not read back turned; metric primitives are evaluated as inches;
    a region with a gap in its outline is read as two; a line drawn with a polygon cannot be rendered. *)
Theorem C34_render_round_trip_refuted :
  ~ round_trips no_centre default_options pset0 Inch [dot] /\
  ~ round_trips no_centre default_options pset0 Inch [line_with holed] /\
  ~ round_trips no_centre default_options pset0 Inch [turned] /\
  ~ round_trips no_centre default_options settings34 Metric [line_with (FCircle (zq 1) no_holes)] /\
  ~ round_trips no_centre default_options pset0 Inch [gap] /\
  ~ round_trips no_centre default_options pset0 Inch [line_with (FPolygon 6 (zq 1) 0 no_holes)].
Proof. exact refuted34. Qed.
Print Assumptions C34_render_round_trip_refuted.

(** C35: the D-codes defined in a rendered file are distinct and at least 10, and every aperture selected has
    been defined before. *)
Theorem C35_codes : forall st o items c, render_all o items (new_context st) = Ok c ->
  NoDup (codes (statements c)) /\ Forall (fun d => (10 <= d)%Z) (codes (statements c)) /\
  (forall before d x after, statements c = before ++ SAp d x :: after -> In d (codes before)).
Proof. exact codes_file. Qed.
Print Assumptions C35_codes.
(** C35: after two flashes the same aperture is selected exactly when the shapes, dimensions and the three
    attributes of the hole are equal. *)
Theorem C35_same_code_partial : forall st o items1 comment1 f1 p1 pol1 items2 comment2 f2 p2 pol2 c1 c2,
  render_all o (items1 ++ [mkItem comment1 (TFlash f1 p1 pol1)]) (new_context st) = Ok c1 ->
  render_all o (items2 ++ [mkItem comment2 (TFlash f2 p2 pol2)]) c1 = Ok c2 ->
  current_selection (rev (statements c1)) = current_selection (rev (statements c2)) <-> same_figure f1 f2.
Proof. exact same_code_file. Qed.
Print Assumptions C35_same_code_partial.
(** Missing: holes that are absent in different ways; two circles without hole, hole_diameter being None in one
    and 0 in the other, get different D-codes. *)
Theorem C35_same_code_refuted : exists shape c1 c2,
  figure_is none_hole shape /\ figure_is zero_hole shape /\
  render_all default_options [mkItem None (TFlash none_hole (pt 0 0) None)] (new_context pset0) = Ok c1 /\
  render_all default_options [mkItem None (TFlash zero_hole (pt 0 0) None)] c1 = Ok c2 /\
  current_selection (rev (statements c1)) <> current_selection (rev (statements c2)).
Proof. exact refuted35. Qed.
Print Assumptions C35_same_code_refuted.
Example C35_drawing : option_map codes (match render_all default_options drawing (new_context settings34) with Ok c => Some (statements c) | Err _ => None end) = Some [10; 11; 12]%Z.
Proof. vm_compute. reflexivity. Qed.

(** C78: what is rendered, with points that are on the grid of the file's number format and aperture
    dimensions of at most four digits, is written to a file that, read and evaluated, gives the same primitives in the
    same order, in the units of the context. *)
Theorem C78_file_round_trip : forall fc o st items,
  announceable st -> Forall (supported fc o) items -> Forall (item_exact st) items ->
  exists c t, render_all o items (new_context st) = Ok c /\ dump st c = Ok t /\
    forall fs, exists l st' g l' ms, parse_text fs t = Ok (l, st') /\ p_units st' = p_units st /\
      evaluate_all fc g_init l = Ok (g, l') /\ shown g = map Some ms /\ Forall2 (reads_as (p_units st)) items ms.
Proof. exact text_trip_lemma. Qed.
Print Assumptions C78_file_round_trip.
Example C78_drawing : announceable settings34 /\ Forall (supported no_centre default_options) drawing /\ Forall (item_exact settings34) drawing.
Proof. split; [exact settings34_ok|]. split; [exact drawing_supported|exact drawing_exact]. Qed.
