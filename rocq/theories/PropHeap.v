(** Properties of unit conversion and offset of object graphs: C52, C57. *)
From Verif Require Import PyBase QcLib NumModel GerberText HeapModel HeapSpec HeapProofs.
Open Scope list_scope.
Open Scope Qc_scope.

(** Two lines and a region of two lines, in inches; all four lines share one aperture (object 0). *)
Definition p (x y : Z) : Qc * Qc := (zq x, zq y).
Definition sample : heap :=
  [ new_circle None (zq 1) (VNum 0) 0 0 (Some Inch);
    new_line (p 0 0) (p 4 0) 0%nat (Some Inch);
    new_line (p 4 0) (p 4 3) 0%nat (Some Inch);
    new_line (p 4 3) (p 0 0) 0%nat (Some Inch);
    new_line (p 1 1) (p 2 2) 0%nat (Some Inch);
    new_region [3; 4]%nat (Some Inch) ].
Definition roots : list loc := [1; 2; 5]%nat.
Lemma sample_proper : proper_heap sample.
Proof.
  repeat constructor; cbn; try (intuition discriminate);
    intros a H; repeat (destruct H as [<- | H]; [eexists; split; [reflexivity|]; first [apply (Proper_objs _ [3; 4]%nat); repeat constructor; lia | constructor; cbn; lia | constructor 3; do 3 eexists; split; [reflexivity|repeat (constructor; [eexists; reflexivity|]); constructor]|constructor]|]); destruct H.
Qed.
Lemma sample_roots : Forall (fun l => l < List.length sample)%nat roots.
Proof. repeat constructor; cbn; lia. Qed.
Lemma sample_inch : all_in Inch sample roots.
Proof. intros l m o _ _ G. left. do 6 (destruct m as [|m]; [injection G as <-; reflexivity|]). destruct m; discriminate. Qed.
Lemma sample_lists : no_single_lists sample.
Proof.
  intros l o a t v G I E. do 6 (destruct l as [|l]; [injection G as <-; cbn in I; repeat (destruct I as [<- | I]; [discriminate|]); destruct I|]). destruct l; discriminate.
Qed.

(** ** C52 *)
(** The full statement is false: a region with one segment is marked as converted, but its segment
    is not. *)
Definition lonely : heap := [new_circle None (zq 1) (VNum 0) 0 0 (Some Inch); new_line (p 0 0) (p 4 0) 0%nat (Some Inch); new_region [1]%nat (Some Inch)].
Theorem C52_conversion_scales_refuted : exists h ls h', proper_heap h /\ Forall (fun l => l < List.length h)%nat ls /\ all_in Inch h ls /\
  convert_all (enough h) Metric h ls = Ok h' /\ ~ converts_exactly Metric h ls h'.
Proof.
  exists lonely, [2%nat], [new_circle None (zq 1) (VNum 0) 0 0 (Some Inch); new_line (p 0 0) (p 4 0) 0%nat (Some Inch); new_region [1]%nat (Some Metric)].
  split; [|split; [repeat constructor; cbn; lia|split; [|split; [reflexivity|]]]].
  - repeat constructor; cbn; try (intuition discriminate);
      intros a H; repeat (destruct H as [<- | H]; [eexists; split; [reflexivity|]; first [apply (Proper_objs _ [1]%nat); repeat constructor; lia | constructor; cbn; lia | constructor 3; do 3 eexists; split; [reflexivity|repeat (constructor; [eexists; reflexivity|]); constructor]|constructor]|]); destruct H.
  - intros l m o _ _ G. left. do 3 (destruct m as [|m]; [injection G as <-; reflexivity|]). destruct m; discriminate.
  - intros (_ & C & _). specialize (C 2%nat 1%nat (or_introl eq_refl)). assert (P : part_of lonely 2%nat 1%nat).
    { apply (Part_sub lonely 2%nat (new_region [1%nat] (Some Inch)) 1%nat 1%nat); [reflexivity|now left|constructor]. }
    specialize (C P). discriminate C.
Qed.
Print Assumptions C52_conversion_scales_refuted.

(** What holds: when no object holds a list of exactly one object, every part of the objects
    converted, however often it is reached, is multiplied by the factor exactly once, and nothing
    else changes. *)
Theorem C52_conversion_scales_partial : forall u w h ls, proper_heap h -> no_single_lists h ->
  Forall (fun l => l < List.length h)%nat ls -> w <> u -> all_in w h ls ->
  exists h', convert_all (enough h) u h ls = Ok h' /\ converts_exactly u h ls h'.
Proof. intros u w h ls P N L D A. apply conversion_exact; try assumption. replace (other u) with w; [exact A|]. destruct w, u; congruence || reflexivity. Qed.
Print Assumptions C52_conversion_scales_partial.
Example C52_sample_scales : exists h', convert_all (enough sample) Metric sample roots = Ok h' /\ converts_exactly Metric sample roots h'.
Proof. exact (C52_conversion_scales_partial Metric Inch sample roots sample_proper sample_lists sample_roots ltac:(discriminate) sample_inch). Qed.
Example C52_sample_aperture : option_map (fun o => option_map (fun v => match v with VNum q => this q | _ => 0%Q end) (getattr "diameter" (po_attrs o)))
    (match convert_all (enough sample) Metric sample roots with Ok h => hget h 0%nat | Err _ => None end) = Some (Some (127 # 5)%Q).
Proof. vm_compute. reflexivity. Qed.

(** Without the restriction, in graphs of mixed units too: every object keeps its physical size
    (lengths and units together), and all its other attributes. *)
Theorem C52_physical_size : forall u h ls h', proper_heap h -> Forall (fun l => l < List.length h)%nat ls ->
  convert_all (enough h) u h ls = Ok h' ->
  forall m o, hget h m = Some o -> exists o', hget h' m = Some o' /\ physical o' = physical o /\ non_lengths o' = non_lengths o.
Proof. exact conversion_physical. Qed.
Print Assumptions C52_physical_size.
(** Conversion never fails. *)
Theorem C52_conversion_succeeds : forall u h ls, proper_heap h -> Forall (fun l => l < List.length h)%nat ls ->
  is_ok (convert_all (enough h) u h ls) = true.
Proof. exact conversion_total. Qed.
Print Assumptions C52_conversion_succeeds.
(** What is converted for each class is exactly what has a dimension: not the number of sides, angles, ... *)
Theorem C52_classes : forall o, of_class o -> NoDup (po_conv o) /\ incl (po_conv o) (map fst (po_attrs o)) /\
  forall a, In a (map fst (po_attrs o)) -> (In a (po_conv o) <-> ~ In a dimensionless).
Proof. exact classes_lemma. Qed.
Print Assumptions C52_classes.
Example C52_classes_ex : of_class (new_polygon (Some (p 1 2)) (zq 6) (zq 3) (zq 30) 0 0 0 (Some Inch)) /\ non_lengths (new_polygon (Some (p 1 2)) (zq 6) (zq 3) (zq 30) 0 0 0 (Some Inch)) = [("sides", VNum (zq 6)); ("rotation", VNum (zq 30))]%string.
Proof. split; [constructor|reflexivity]. Qed.
(** Any sequence of conversions is the same as the last one of them; in particular twice is once,
    and back is nothing. *)
Theorem C52_conversion_sequences : forall w v h ls h1 us, proper_heap h -> Forall (fun l => l < List.length h)%nat ls -> all_in w h ls -> v <> w ->
  convert_all (enough h) v h ls = Ok h1 ->
  foldM (fun g u => convert_all (enough g) u g ls) h us = Ok (if unit_eqb (last us w) w then h else h1).
Proof. intros w v h ls h1 us P L A D E. apply (conversion_sequence w h ls h1 us P L A). replace (other w) with v; [exact E|]. destruct w, v; congruence || reflexivity. Qed.
Print Assumptions C52_conversion_sequences.
Example C52_sample_back : foldM (fun g u => convert_all (enough g) u g roots) sample [Metric; Metric; Inch; Inch; Metric; Inch] = Ok sample.
Proof.
  destruct (convert_all (enough sample) Metric sample roots) as [h1|] eqn:E; [|exfalso; vm_compute in E; discriminate].
  exact (C52_conversion_sequences Inch Metric sample roots h1 [Metric; Metric; Inch; Inch; Metric; Inch] sample_proper sample_roots sample_inch ltac:(discriminate) E).
Qed.

(** Offset moves the objects, and what they contain, exactly once, and not their apertures. *)
Theorem C52_offset_moves : forall d h ls ms fuel, members h ls ms -> NoDup ms ->
  (forall m o, In m ms -> hget h m = Some o -> movable o) -> (List.length ms <= fuel)%nat ->
  exists h', offset_all fuel d h ls = Ok h' /\ List.length h' = List.length h /\ moves_exactly d h ms h'.
Proof. exact offset_exact. Qed.
Print Assumptions C52_offset_moves.
Example C52_sample_members : members sample roots [1; 2; 5; 3; 4]%nat /\ NoDup [1; 2; 5; 3; 4]%nat /\
  (forall m o, In m [1; 2; 5; 3; 4]%nat -> hget sample m = Some o -> movable o).
Proof.
  split; [|split].
  - assert (L : forall l a b, hget sample l = Some (new_line a b 0%nat (Some Inch)) -> forall ls ms, members sample ls ms -> members sample (l :: ls) (l :: ms)).
    { intros l a b G ls ms M. apply (Members_cons _ l _ ls [] ms G); [constructor|exact M]. }
    apply (L _ (p 0 0) (p 4 0)); [reflexivity|]. apply (L _ (p 4 0) (p 4 3)); [reflexivity|].
    apply (Members_cons _ 5%nat (new_region [3; 4]%nat (Some Inch)) [] [3; 4]%nat []); [reflexivity| |constructor].
    change (contents (new_region [3%nat; 4%nat] (Some Inch))) with [3; 4]%nat.
    apply (L _ (p 4 3) (p 0 0)); [reflexivity|]. apply (L _ (p 1 1) (p 2 2)); [reflexivity|]. constructor.
  - repeat constructor; cbn; intuition lia.
  - intros m o I G. cbn in I. repeat (destruct I as [<- | I]; [injection G as <-; split; [cbn; repeat (constructor; [cbn; intuition discriminate|]); constructor|split;
      [intros a v A E; cbn in A; repeat (destruct A as [<- | A]; [cbn in E; first [discriminate|injection E as <-; do 3 eexists; reflexivity]|]); destruct A
      |intros v E; cbn in E; first [discriminate|injection E as <-; exists false; eexists; first [exact (eq_refl : VSeq false (map VRef [3; 4]%nat) = _)]]]]|]). destruct I.
Qed.

(** ** C57 *)
(** The argument of the operation, before ([h]) and after ([g]): the objects that were there are as
    they were, and the result is a separate graph, equal to the one that converting in place gives. *)
Theorem C57_conversion_of_a_copy : forall fuel u h ls,
  match converted_copy fuel u h ls with
  | Ok (g, ls') =>
      (forall m, (m < List.length h)%nat -> hget g m = hget h m) /\
      exists h', convert_all fuel u h ls = Ok h' /\ skipn (List.length h) g = map (shift_obj (List.length h)) h' /\
                 ls' = map (fun l => (List.length h + l)%nat) ls
  | Err e => convert_all fuel u h ls = Err e
  end.
Proof. exact copy_untouched. Qed.
Print Assumptions C57_conversion_of_a_copy.
Theorem C57_offset_of_a_copy : forall fuel d h ls,
  match offset_copy fuel d h ls with
  | Ok (g, ls') =>
      (forall m, (m < List.length h)%nat -> hget g m = hget h m) /\
      exists h', offset_all fuel d h ls = Ok h' /\ skipn (List.length h) g = map (shift_obj (List.length h)) h' /\
                 ls' = map (fun l => (List.length h + l)%nat) ls
  | Err e => offset_all fuel d h ls = Err e
  end.
Proof. exact offset_copy_untouched. Qed.
Print Assumptions C57_offset_of_a_copy.
Example C57_sample : is_ok (converted_copy (enough sample) Metric sample roots) = true /\ is_ok (offset_copy 10%nat (p 1 2) sample roots) = true.
Proof. split; vm_compute; reflexivity. Qed.
