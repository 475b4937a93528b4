(** Properties of memoized bounding boxes: C51, C79. *)
From Coq Require Import Reals List Bool Lra.
From Verif Require Import GeomModel CacheModel CacheSpec CacheProofs CacheMove.
Import ListNotations.
Open Scope R_scope.
Open Scope list_scope.

(** The full statement: after any history both boxes are those of an object built anew with the same
    attributes. *)
Definition never_stale : Prop := forall k s l, is_new s -> up_to_date k (run k l s).

(** It is false: a slot that was measured, then moved, still reports the old box. *)
Theorem C51_cache_refuted : ~ never_stale.
Proof.
  intro N. destruct (exceptions_lemma Slot (Offset (1, 0)) eq_refl) as (s & o & New & _ & _ & Stale). exact (Stale (N _ _ _ New)).
Qed.
Print Assumptions C51_cache_refuted.

(** It holds of every class and every history in which none of the assignments listed by
    [exceptional] occurs ... *)
Theorem C51_cache_partial : forall k s l, is_new s -> Forall (fun o => exceptional k o = false) l -> up_to_date k (run k l s).
Proof. exact (fun k s l => C51_lemma k l s). Qed.
Print Assumptions C51_cache_partial.

(** ... and each of those can, after a single read, leave an outdated box behind. *)
Theorem C51_exceptions : forall k o, exceptional k o = true ->
  exists s o', is_new s /\ same_attribute o o' /\ exceptional k o' = true /\ ~ up_to_date k (run k [Read; o'] s).
Proof. exact exceptions_lemma. Qed.
Print Assumptions C51_exceptions.

(** Regions, outlines and macro groups: the box is up to date after any history of reading, moving and
    converting; for macro groups the parts may also be changed. *)
Theorem C51_groups_partial : forall k g l, g_is_new g -> no_slots g ->
  Forall (fun o => g_exceptional k (map fst (parts g)) o = false) l -> g_up_to_date k (g_run k l g).
Proof. exact (fun k g l => C51_groups_lemma k l g). Qed.
Print Assumptions C51_groups_partial.

(** Changing a part of a region or an outline behind its back leaves an outdated box. *)
Definition one_line : group := mkG [(Line, create (fun _ => (0, 0)) (fun _ => 0) (Round 0) Clockwise SingleQuadrant 0 None)] None None.
Theorem C51_groups_refuted : forall k, k = Region \/ k = Outline -> ~ (forall g l, g_is_new g -> no_slots g -> g_up_to_date k (g_run k l g)).
Proof.
  intros k K H. specialize (H one_line [GRead; GPart 0%nat (SetPoint End (1, 0))] eq_refl).
  assert (NS : no_slots one_line) by (intros x [<-|[]]; discriminate).
  specialize (H NS). unfold g_up_to_date in H. apply (f_equal (option_map (fun b : rbox => snd (fst b)))) in H.
  destruct K as [-> | ->].
  - change (Some (Rmax 0 0) = Some (Rmax 0 1)) in H. injection H as H. rewrite Rmax_left, Rmax_right in H by lra. lra.
  - change (Some (Rmax 0 0 + 0) = Some (Rmax 0 1 + 0)) in H. injection H as H. rewrite Rmax_left, Rmax_right in H by lra. lra.
Qed.
Print Assumptions C51_groups_refuted.

(** A history that meets the hypotheses: a circle is measured, moved, resized, turned, converted. *)
Definition disc : st := create (fun _ => (1, 2)) (fun a => match a with Diameter => 2 | _ => 0 end) (Round 0) Clockwise SingleQuadrant 0 (Some Metric).
Definition history : list op := [Read; SetPoint Position (5, 5); Read; Offset (1, 0); SetNumber Diameter 4; SetRotation 30; ReadNoAperture; Convert Inch; Read; Convert Metric].
Example C51_history : is_new disc /\ Forall (fun o => exceptional Circle o = false) history.
Proof. split; [reflexivity|]. repeat constructor. Qed.
Example C51_box_moves : fst (fst (fst (read Circle disc))) = 0 /\ fst (fst (fst (read Circle (run Circle [Read; SetPoint Position (5, 5)] disc)))) = 4.
Proof. split; cbn; unfold half; lra. Qed.
Example C51_group_history : g_is_new one_line /\ no_slots one_line /\
  Forall (fun o => g_exceptional Region (map fst (parts one_line)) o = false) [GRead; GOffset (1, 2); GPart 0%nat Read; GRead; GConvert Inch] /\
  Forall (fun o => g_exceptional Macro (map fst (parts one_line)) o = false) [GRead; GPart 0%nat (SetPoint End (1, 0)); GRead].
Proof.
  split; [reflexivity|]. split; [intros x [<-|[]]; discriminate|]. split; repeat constructor.
Qed.

(** C79: after any history without the assignments listed by [exceptional], moving an object other than a slot
    moves both its boxes by the same amount ... *)
Theorem C79_offset_partial : forall k s l d, is_new s -> Forall (fun o => exceptional k o = false) l -> k <> Slot ->
  let s' := run k l s in
  fst (read k (step k (Offset d) s')) = shifted d (fst (read k s')) /\
  fst (read_no_aperture k (step k (Offset d) s')) = shifted d (fst (read_no_aperture k s')).
Proof. exact (fun k s l d => moved_lemma k l s d). Qed.
Print Assumptions C79_offset_partial.
(** ... converting it from the other unit scales both boxes by 25.4 or 1 / 25.4 ... *)
Theorem C79_convert : forall k s l u, is_new s -> Forall (fun o => exceptional k o = false) l ->
  let s' := run k l s in (exists w, units s' = Some w /\ w <> u) ->
  units (step k (Convert u) s') = Some u /\
  fst (read k (step k (Convert u) s')) = magnified (per_unit u) (fst (read k s')) /\
  fst (read_no_aperture k (step k (Convert u) s')) = magnified (per_unit u) (fst (read_no_aperture k s')).
Proof. intros k s l u N F s' (w & U & D). apply (converted_lemma k l s u N F). fold s'. rewrite U. f_equal. destruct w, u; congruence || reflexivity. Qed.
Print Assumptions C79_convert.
(** ... and converting it when it has that unit already, or none, changes nothing. *)
Theorem C79_convert_again : forall k s u, units s = Some u \/ units s = None -> step k (Convert u) s = s.
Proof. intros k s u U. apply unconverted_lemma. destruct U as [-> | ->], u; discriminate. Qed.
Print Assumptions C79_convert_again.
(** A slot whose box has been read reports the old box after it is moved. *)
Theorem C79_offset_refuted : exists s d, is_new s /\
  fst (read Slot (step Slot (Offset d) (run Slot [Read] s))) <> shifted d (fst (read Slot (run Slot [Read] s))).
Proof. exact slot_stays. Qed.
Print Assumptions C79_offset_refuted.
Example C79_history : is_new disc /\ Forall (fun o => exceptional Circle o = false) (removelast history) /\ Circle <> Slot /\
  units (run Circle (removelast history) disc) = Some Inch.
Proof. split; [reflexivity|]. split; [repeat constructor|]. split; [discriminate|reflexivity]. Qed.
