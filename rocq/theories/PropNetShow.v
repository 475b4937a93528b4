(** Properties of images of netlists. *)
From Coq Require Import Lra.
From Verif Require Import PyBase QcLib GeomModel GeomSpec CairoModel CairoSpec MacroGeomModel MacroGeomProofs CairoMore NetShowModel NetShowSpec NetShowProofs IpcSpec.
From Verif Require IpcModel.
Import ListNotations.
Open Scope R_scope.
Open Scope list_scope.

(** ** C155 *)
(** The claim, [points_in_place] (NetShowSpec.v), is false: dots and names are moved by the lower left corner of the image. *)
Theorem C155_moved_partial : forall fill glyphs s b mir l n, filling fill -> 0 < s -> fst (fst b) <= snd (fst b) -> fst (snd b) <= snd (snd b) ->
  let corner := (fst (fst b), fst (snd b)) in
  exists img, render_netlist fill glyphs (Some (set_bounds s b false mir)) l n = Ok img /\
  forall p, inside b p -> below_dots corner l n s p -> (img (pixel s b mir p) <-> dotted corner l n p \/ named glyphs s corner l n (pixel s b mir p)).
Proof. exact netlist_shown. Qed.
Print Assumptions C155_moved_partial.
(** Inverted images show everything else. *)
Theorem C155_inverted_partial : forall fill glyphs s b mir l n, filling fill -> 0 < s -> fst (fst b) <= snd (fst b) -> fst (snd b) <= snd (snd b) ->
  let corner := (fst (fst b), fst (snd b)) in
  exists img, render_netlist fill glyphs (Some (set_bounds s b true mir)) l n = Ok img /\
  forall p, inside b p -> below_dots corner l n s p -> (img (pixel s b mir p) <-> ~ (dotted corner l n p \/ named glyphs s corner l n (pixel s b mir p))).
Proof. exact netlist_inverted. Qed.
Print Assumptions C155_inverted_partial.
(** The claim holds for images whose lower left corner is the origin ... *)
Theorem C155_origin_partial : forall fill glyphs s w h mir l n, filling fill -> 0 < s -> 0 <= w -> 0 <= h ->
  exists img, render_netlist fill glyphs (Some (set_bounds s ((0, w), (0, h)) false mir)) l n = Ok img /\
  forall p, inside ((0, w), (0, h)) p -> below_dots (0, 0) l n s p ->
    (img (pixel s ((0, w), (0, h)) mir p) <-> dotted (0, 0) l n p \/ named glyphs s (0, 0) l n (pixel s ((0, w), (0, h)) mir p)).
Proof. intros fill glyphs s w h mir l n Fi S W H. exact (netlist_shown fill glyphs s ((0, w), (0, h)) mir l n Fi S W H). Qed.
Print Assumptions C155_origin_partial.
(** ... and not for others. *)
Theorem C155_place_refuted : ~ points_in_place.
Proof. exact not_in_place. Qed.
Print Assumptions C155_place_refuted.
(** IPCNetlist.render does not give the context any bounds.  In a new context, all netlists with a test point on the chosen side end
    in a TypeError. *)
Theorem C155_bounds_refuted : forall fill glyphs l n, (exists pos name, reachable l n pos name) -> render_netlist fill glyphs None l n = Err TypeError.
Proof.
  intros fill glyphs l n (pos & name & P). apply records_reachable in P. unfold render_netlist. destruct (records_of l n); [contradiction|reflexivity].
Qed.
Print Assumptions C155_bounds_refuted.

Example C155_ex : filling CairoMore.between /\ reachable IpcModel.RTop one_point (2, 2) (T "A") /\ below_dots (1, 1) IpcModel.RTop one_point 1000 (3, 3) /\
  dotted (1, 1) IpcModel.RTop one_point (3, 3) /\ below_dots (0, 0) IpcModel.RTop one_point 1000 (2, 2) /\ dotted (0, 0) IpcModel.RTop one_point (2, 2).
Proof.
  split; [exact CairoMore.between_filling|]. split; [exact one_reachable|]. split; [intros pos name P _; apply one_reached in P as ->; cbn; lra|].
  split; [exists (2, 2), (T "A"); split; [exact one_reachable|unfold disc, dist2; cbn; lra]|]. split; [intros pos name P _; apply one_reached in P as ->; cbn; lra|].
  exists (2, 2), (T "A"). split; [exact one_reachable|unfold disc, dist2; cbn; lra].
Qed.
Example C155_ex_text :
  rmap (fun n => map (fun p => (this (fst (fst (fst p))), this (snd (fst (fst p))), snd (fst p), snd p)) (IpcModel.n_prims n))
    (IpcModel.parse_raw (IpcSpec.file_of [IpcSpec.record_line 6 (IpcSpec.mkCols "1" (T "A") (T "U1") "-" (T "1") false None true 0 20000 20000 0 0 0 0)])) =
  Ok [(2%Q, 2%Q, T "A", IpcModel.AccBoth)].
Proof. vm_compute. reflexivity. Qed.
