(** Properties of Gerber files with aperture macros that are read and written again: C159. *)
From Verif Require Import PyBase QcLib NumModel MacroModel GerberText GerberTextSpec AmModel AmSpec CairoModel GeomSpec DrillShowModel
  MacroFileModel MacroFileSpec MacroFileProofs MacroFileShow MacroFileExamples WriterExamples.
From Verif Require Import GerberEval GerberEvalSpec.
Open Scope list_scope.

(** ** C159 *)
(** A file whose statements can be written exactly, and in which all apertures made from one macro have the same
    primitives, is written to a text that is read as a file with the same marks in the same order: the same places,
    polarities, units and apertures, where an aperture made from a macro has the same primitives.
    Missing: macros used for apertures with different primitives, and used macros without primitives (both refuted below). *)
Theorem C159_marks_partial : forall fc fs data l st ms, parse_text fs data = Ok (l, st) -> announceable st -> Forall (rest_writable st) l ->
  format_before_coords l -> definitions_ok [] l -> image fc [] l = Some ms -> one_shape_each l ->
  exists t l' ms', rewritten fc fs data = Ok t /\ (forall fs', exists st', parse_text fs' t = Ok (l', st')) /\
    image fc [] l' = Some ms' /\ Forall2 same_mark ms ms'.
Proof. exact rewritten_marks. Qed.
Print Assumptions C159_marks_partial.
(** The image of the file written is that of the file read, pixel for pixel and at any scale; if the first fails with an error,
    so does the second, with the same error. *)
Theorem C159_image_partial : forall fill fc s inv fs data l st ms, parse_text fs data = Ok (l, st) -> announceable st -> Forall (rest_writable st) l ->
  format_before_coords l -> definitions_ok [] l -> image fc [] l = Some ms -> one_shape_each l ->
  exists t, rewritten fc fs data = Ok t /\ forall fs', show_text fill fc s inv fs' t = show_text fill fc s inv fs data.
Proof. exact rewritten_image. Qed.
Print Assumptions C159_image_partial.
(** A file with a macro used for two apertures, a macro that is not used, and four marks. *)
Example C159_sample : exists l st ms, parse_text no_files macro_sample = Ok (l, st) /\ announceable st /\ Forall (rest_writable st) l /\
  format_before_coords l /\ definitions_ok [] l /\ image no_centre [] l = Some ms /\ List.length ms = 4%nat /\ one_shape_each l.
Proof. exact macro_sample_ok. Qed.
Example C159_sample_again : rewritten no_centre no_files macro_sample = Ok macro_sample_again.
Proof. exact macro_sample_rewritten. Qed.
(** The full statement is false: a macro used for discs of diameters 1 and 2 is written as a disc of diameter 2 for both. *)
Theorem C159_sizes_refuted : exists l st ms t, parse_text no_files two_discs = Ok (l, st) /\ announceable st /\ Forall (rest_writable st) l /\
  format_before_coords l /\ definitions_ok [] l /\ image no_centre [] l = Some ms /\ rewritten no_centre no_files two_discs = Ok t /\
  forall l' st' ms', parse_text no_files t = Ok (l', st') -> image no_centre [] l' = Some ms' -> ~ Forall2 same_mark ms ms'.
Proof. exact two_discs_refuted. Qed.
Print Assumptions C159_sizes_refuted.
(** A macro without primitives, for which an aperture is defined: the file written cannot be read again. *)
Theorem C159_empty_refuted : exists l st ms t l' st', parse_text no_files no_disc = Ok (l, st) /\ announceable st /\ Forall (rest_writable st) l /\
  format_before_coords l /\ definitions_ok [] l /\ image no_centre [] l = Some ms /\ rewritten no_centre no_files no_disc = Ok t /\
  parse_text no_files t = Ok (l', st') /\ evaluate_all no_centre g_init l' = Err KeyError.
Proof. exact no_disc_refuted. Qed.
Print Assumptions C159_empty_refuted.
