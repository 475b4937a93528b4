(** Properties of the statement evaluator: C24-C30. *)
From Verif Require Import PyBase QcLib NumModel MacroModel GerberText GerberEval GerberEvalSpec GerberEvalProofs.
Open Scope Qc_scope.

(** A file with a line, an arc, a flash, a region with two contours, redefined aperture 10 and a
    metric part. *)
Definition no_centre : centre_fun := fun _ _ _ _ => None.
Definition coord (f : option text) (x y : option Z) (op : option text) : stmt :=
  SCoord f (option_map zq x) (option_map zq y) None None op.
Definition D01 := Some (T "D01").
Definition D02 := Some (T "D02").
Definition D03 := Some (T "D03").
Definition part1 : list stmt :=
  [SMO true Inch; SAD 10 (T "C") [[zq 1]]; SAp 10 false; coord (Some (T "G01")) None None None;
   coord None (Some 1%Z) (Some 1%Z) D02; coord None (Some 5%Z) None D01; coord None None (Some 7%Z) None;
   SCoord (Some (T "G03")) (Some (zq 9)) None (Some (zq 2)) None D01; SLP Clear; coord None (Some 0%Z) (Some 0%Z) D03].
Definition region1 : list stmt :=
  [coord None (Some 0%Z) (Some 0%Z) D02; coord (Some (T "G01")) (Some 4%Z) None D01; coord None None (Some 4%Z) None;
   coord None (Some 0%Z) (Some 0%Z) None; coord None (Some 8%Z) (Some 8%Z) D02; coord None (Some 9%Z) None D01;
   coord None (Some 20%Z) None D02; coord None (Some 21%Z) None D01].
Definition part2 : list stmt :=
  [SCom (T "again"); SAD 10 (T "R") [[zq 2; zq 3]]; SMO true Metric; coord None None None D03; SEof].
Definition whole : list stmt := part1 ++ SReg On :: region1 ++ SReg Off :: part2.

(** C24: when evaluation ends, the primitives, with the apertures as they then are, are exactly the
    marks that the graphics-state semantics prescribes, in order. *)
Theorem C24_image_is_graphics_state_semantics : forall fc l st l',
  evaluate_all fc g_init l = Ok (st, l') -> exists ms, image fc [] l = Some ms /\ shown st = map Some ms.
Proof. exact (fun fc l st l' H => proj2 (evaluate_image fc l [] g_init st l' (inv_init fc) H)). Qed.
Print Assumptions C24_image_is_graphics_state_semantics.
Example C24_holds_of_file : is_ok (evaluate_all no_centre g_init whole) = true /\
  option_map (map (fun m => match m with Stroke _ => 1%nat | Fill l _ _ => (10 + List.length l)%nat | Stamp _ => 2%nat end)) (image no_centre [] whole)
  = Some [1; 1; 1; 2; 13; 11; 2]%nat.
Proof. split; vm_compute; reflexivity. Qed.

(** C25: filling in omitted coordinates and operations with the values in force gives the same
    primitives and the same final state. *)
Theorem C25_modal_values_explicit : forall fc l l', filled_list [] l l' ->
  rmap fst (evaluate_all fc g_init l') = rmap fst (evaluate_all fc g_init l).
Proof. exact (fun fc l l' F => filled_same fc [] l l' F g_init (inv_init fc)). Qed.
Print Assumptions C25_modal_values_explicit.
Example C25_has_instances : filled_list []
  [SAD 10 (T "C") [[zq 1]]; SAp 10 false; coord None (Some 5%Z) None D01; coord None None (Some 7%Z) None]
  [SAD 10 (T "C") [[zq 1]]; SAp 10 false; coord None (Some 5%Z) (Some 0%Z) D01; coord None (Some 5%Z) (Some 7%Z) D01].
Proof.
  constructor; [reflexivity|]. constructor; [reflexivity|]. constructor.
  - exists (Some (zq 5)), (Some (zq 0)), D01. split; [reflexivity|]. split; [now left|]. split; [now right|now left].
  - constructor; [|constructor]. exists (Some (zq 5)), (Some (zq 7)), D01. split; [reflexivity|].
    split; [now right|]. split; [now left|now right].
Qed.

(** C26: the primitives of a part of a file come first in the primitives of the whole, and the
    statements that follow do not change what they look like. *)
Theorem C26_drawn_objects_never_change : forall fc l1 l2 st2 a, evaluate_all fc g_init (l1 ++ l2) = Ok (st2, a) ->
  exists st1 b new, evaluate_all fc g_init l1 = Ok (st1, b) /\ g_prims st2 = g_prims st1 ++ new /\
    map (deref (g_store st2)) (g_prims st1) = shown st1.
Proof. exact earlier_unchanged. Qed.
Print Assumptions C26_drawn_objects_never_change.
Example C26_redefinition : is_ok (evaluate_all no_centre g_init (part1 ++ part2)) = true.
Proof. vm_compute; reflexivity. Qed.

(** C27: dropping comments, unknown and deprecated statements and end-of-file marks changes neither
    the primitives nor the final state nor whether evaluation fails. *)
Theorem C27_neutral_statements : forall fc l,
  rmap fst (evaluate_all fc g_init (filter (fun s => negb (neutral s)) l)) = rmap fst (evaluate_all fc g_init l).
Proof. exact (fun fc l => neutral_filtered fc l g_init). Qed.
Print Assumptions C27_neutral_statements.
Example C27_drops_something : (List.length (filter (fun s => negb (neutral s)) whole) < List.length whole)%nat.
Proof. vm_compute; lia. Qed.

(** C28: what a region adds: no stroke, and one filled area for each contour. *)
Theorem C28_region_contours : forall fc before body st l', in_region (rev before) = Off -> no_region_change body ->
  evaluate_all fc g_init (before ++ SReg On :: body ++ [SReg Off]) = Ok (st, l') ->
  exists st0 l0 ms, evaluate_all fc g_init before = Ok (st0, l0) /\ shown st = shown st0 ++ map Some ms /\
    filter is_stroke ms = [] /\ filter is_fill ms = region_fills fc (SReg On :: rev before) body.
Proof. exact regions_filled. Qed.
Print Assumptions C28_region_contours.
Example C28_has_instances : in_region (rev part1) = Off /\ no_region_change region1 /\
  is_ok (evaluate_all no_centre g_init (part1 ++ SReg On :: region1 ++ [SReg Off])) = true /\
  map (fun m => match m with Fill l _ _ => List.length l | _ => 0%nat end) (region_fills no_centre (SReg On :: rev part1) region1) = [3; 1]%nat.
Proof.
  split; [vm_compute; reflexivity|]. split; [repeat constructor; discriminate|]. split; vm_compute; reflexivity.
Qed.

(** C29: given complete aperture definitions, evaluation fails exactly when the semantics prescribes
    a mark with an undefined aperture, and then with KeyError. *)
Theorem C29_undefined_aperture_is_an_error : forall fc l, definitions_ok [] l ->
  (image fc [] l = None -> evaluate_all fc g_init l = Err KeyError) /\
  (image fc [] l <> None -> is_ok (evaluate_all fc g_init l) = true).
Proof. exact undefined_aperture. Qed.
Print Assumptions C29_undefined_aperture_is_an_error.
(** One statement: a draw or a flash outside regions without its aperture. *)
Theorem C29_draw_without_aperture : forall fc past s, in_region past = Off -> aperture_of (current_selection past) past = None ->
  action past s = Draw \/ action past s = Flash -> marks fc past s = None.
Proof. exact marks_undefined. Qed.
Print Assumptions C29_draw_without_aperture.
Example C29_undefined : definitions_ok [] [SAD 10 (T "C") [[zq 1]]; SAp 11 false; coord None None None D03] /\
  evaluate_all no_centre g_init [SAD 10 (T "C") [[zq 1]]; SAp 11 false; coord None None None D03] = Err KeyError.
Proof. split; [|vm_compute; reflexivity]. split; [|cbn; auto]. now exists [zq 1], [], (ShCircle (zq 1) 0 0 0). Qed.

(** C30: the bounding box of a file is the smallest box around those of its primitives; bounds and
    size are those of the coordinates in its statements. *)
Theorem C30_bounding_box_tight : forall l, l <> [] -> limited (zq 1000000) (flat_map box_sides l) ->
  tight (file_bounding_box l) (map (fun p => fst (fst p)) l) (map (fun p => snd (fst p)) l)
        (map (fun p => fst (snd p)) l) (map (fun p => snd (snd p)) l).
Proof. exact bounding_box_tight. Qed.
Print Assumptions C30_bounding_box_tight.
Theorem C30_bounds_tight : forall l, x_coords l <> [] -> y_coords l <> [] -> limited (zq 1000000) (x_coords l ++ y_coords l) ->
  tight (file_bounds l) (x_coords l) (x_coords l) (y_coords l) (y_coords l).
Proof. exact bounds_tight. Qed.
Print Assumptions C30_bounds_tight.
Theorem C30_size : forall l, x_coords l <> [] -> y_coords l <> [] -> limited (zq 1000000) (x_coords l ++ y_coords l) ->
  exists x0 x1 y0 y1, least x0 (x_coords l) /\ greatest x1 (x_coords l) /\ least y0 (y_coords l) /\ greatest y1 (y_coords l) /\
    file_size l = (x1 - x0, y1 - y0).
Proof. exact size_tight. Qed.
Print Assumptions C30_size.
(** The limits are needed: further out, the initial values of the folds win. *)
Theorem C30_unlimited_refuted : exists l, l <> [] /\ ~ In (fst (fst (file_bounding_box l))) (map (fun p : box => fst (fst p)) l).
Proof. exact bounding_box_unlimited. Qed.
Print Assumptions C30_unlimited_refuted.
Example C30_has_instances : limited (zq 1000000) (x_coords whole ++ y_coords whole) /\
  (let '((a, b), (c, d)) := file_bounds whole in (this a, this b, this c, this d)) = (0, 21 # 1, 0, 8 # 1)%Q.
Proof.
  split; [|vm_compute; reflexivity].
  intros v V. vm_compute in V. repeat destruct V as [<-|V]; try destruct V; split; apply qcle_true; vm_compute; reflexivity.
Qed.
