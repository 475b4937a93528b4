(** Properties of writing groups of macro shapes that were not read from a statement. *)
From Verif Require Import PyBase QcLib NumModel NumSpec FloatCodec GerberText GerberEval MacroModel AmModel AmSpec AmExamples WriterModel WriterExamples AmRenderModel AmRenderExamples
  BareModel BareSpec BareProofs.
Open Scope Qc_scope.
Open Scope list_scope.

(** ** C128 *)
(** The full statement is false of every group: whatever the shapes, the macro is written without primitives. *)
Theorem C128_empty_refuted : forall degrees position pol parts g, bare_group degrees position pol parts = Ok g ->
  forall st name d n m ps, In (SAM n m ps) (macro_stmts name d g) -> to_gerber st (SAM n m ps) = Ok (T "%AM" ++ name ++ T "*%").
Proof.
  intros degrees position pol parts g E st name d n m ps I. unfold bare_group in E. destruct (bare_macro _ _ _) as [mac|]; [|discriminate E].
  cbn [bind] in E. apply ok_inj in E. subst g. destruct I as [I|[I|[]]]; [|discriminate I]. injection I as <- <- <-. reflexivity.
Qed.
Print Assumptions C128_empty_refuted.
(** A disc at (5, 1): the file is written, but it cannot be evaluated, since the macro is not recognised in its statement. *)
Theorem C128_file_refuted : exists g c t l st, bare_group (fun r => r) (at_pos 50000 10000) None [GCircle (at_pos 50000 10000) (dbl 15 1) no_holes Dark] = Ok g /\
  render_list two_digits default_options [Macro None g] (new_renderer metric34) = Ok c /\ dump metric34 (fst c) = Ok t /\
  parse_text no_file t = Ok (l, st) /\ In (SUnk (T "%AMXC12*%")) l /\ evaluate_all no_centre g_init l = Err KeyError.
Proof.
  do 5 eexists. split; [vm_compute; reflexivity|]. split; [vm_compute; reflexivity|]. split; [vm_compute; reflexivity|]. split; [vm_compute; reflexivity|].
  split; [do 2 right; left; reflexivity|vm_compute; reflexivity].
Qed.
Print Assumptions C128_file_refuted.
(** What would be written also differs from the shapes: clear shapes become dark, holes are lost, turned rectangles
    are turned by another angle, and lines of round apertures fail. *)
Definition misrepresented (degrees : Qc -> Qc) (x : part) : Prop := exists q, from_primitive degrees x = Ok q /\ forall o, ~ stands_for o x q.
Theorem C128_shapes_refuted : forall degrees p d,
  (forall hs, misrepresented degrees (GCircle p d hs Clear)) /\
  (forall hole pol, hole <> 0 -> misrepresented degrees (GCircle p d (Some hole, None, None) pol)) /\
  (forall w h r hs pol, degrees r <> r -> misrepresented degrees (GRect p w h r hs pol)) /\
  (forall a b hs pol, from_primitive degrees (GLine a b (FCircle d hs) pol) = Err AttributeError).
Proof.
  intros degrees p d. split; [|split; [|split; [|reflexivity]]].
  - intros hs. eexists. split; [reflexivity|]. intros o (_ & _ & _ & [H _]). discriminate (H eq_refl).
  - intros hole pol N. eexists. split; [reflexivity|]. intros o (_ & _ & ([H|H] & _) & _); congruence.
  - intros w h r hs pol N. eexists. split; [reflexivity|]. intros o (_ & _ & _ & E & _). contradiction.
Qed.
Print Assumptions C128_shapes_refuted.
(** What holds: the statement is made from a text that, read as a macro for an aperture without modifiers, gives a
    primitive for every shape.  Missing: the text is not what is written. *)
Theorem C128_text_partial : forall degrees position parts, degrees 0 = 0 -> Forall (expressible (origin_of position)) parts ->
  exists macro instrs ps, bare_macro degrees position parts = Ok macro /\ read_macro macro = Ok instrs /\ am_build instrs [] = Ok ps /\
    Forall2 (stands_for (origin_of position)) parts ps.
Proof. exact C128_lemma. Qed.
Print Assumptions C128_text_partial.
(** A disc, a rectangle, a hexagon and a triangle, flashed at (2, 1). *)
Definition at_ (x y : Z) : point := (zq x, zq y).
Definition sample_parts : list part :=
  [GCircle (at_ 2 1) (dbl 15 1) no_holes Dark; GRect (at_ 3 1) (dbl 5 1) (dbl 25 2) 0 no_holes Dark;
   GPoly (at_ 2 4) 6 (dbl 1 0) (dbl 30 0) no_holes Dark; GOutline (lines_through (at_ 2 1) [at_ 7 1; at_ 2 (-3); at_ 2 1]) Dark].
Example C128_ex : Forall (expressible (origin_of (Some (at_ 2 1)))) sample_parts.
Proof.
  assert (NH : empty_hole no_holes) by (cbn; auto).
  assert (D : forall n, (Z.abs n < 10)%Z -> zq n = dbl n 0).
  { intros n L. assert (K : In n [-9; -8; -7; -6; -5; -4; -3; -2; -1; 0; 1; 2; 3; 4; 5; 6; 7; 8; 9]%Z) by (cbn; lia).
    repeat (destruct K as [<-|K]; [apply qc_eq_iff; vm_compute; reflexivity|]). destruct K. }
  assert (S : forall a b c d, (Z.abs (c - a) < 10)%Z -> (Z.abs (d - b) < 10)%Z -> seen_from (at_ a b) (at_ c d) = (dbl (c - a) 0, dbl (d - b) 0)).
  { intros a b c d A B. unfold seen_from, at_. cbn [fst snd]. rewrite <- !D by assumption. f_equal; unfold Z.sub; rewrite zq_plus, zq_opp; ring. }
  unfold sample_parts. cbn [origin_of]. apply Forall_cons; [|apply Forall_cons; [|apply Forall_cons; [|apply Forall_cons; [|apply Forall_nil]]]]; cbn [expressible].
  - split; [reflexivity|]. split; [exact NH|]. split; [plain_n|]. rewrite S by (cbn; lia). split; plain_n.
  - split; [reflexivity|]. split; [exact NH|]. split; [reflexivity|]. split; [plain_n|]. split; [plain_n|]. rewrite S by (cbn; lia). split; short_n.
  - split; [reflexivity|]. split; [exact NH|]. split; [lia|]. split; [|split; [plain_n|rewrite S by (cbn; lia); split; short_n]].
    replace (dbl 1 0 + dbl 1 0) with (dbl 2 0) by (apply qc_eq_iff; vm_compute; reflexivity). short_n.
  - split; [reflexivity|]. split; [unfold small_count; cbn; lia|]. do 2 eexists. split; [reflexivity|]. split; [discriminate|]. split; [reflexivity|].
    assert (M : forall x y, (Z.abs (x - 2) < 10)%Z -> (Z.abs (y - 1) < 10)%Z -> micro_point (seen_from (at_ 2 1) (at_ x y))).
    { intros x y A B. rewrite S by assumption. assert (G : forall n, (Z.abs n < 10)%Z -> micro (dbl n 0)); [|split; apply G; assumption].
      intros n L. exists n, 0%nat. split; [lia|]. split; [reflexivity|]. split; [lia|].
      assert (K : In n [-9; -8; -7; -6; -5; -4; -3; -2; -1; 0; 1; 2; 3; 4; 5; 6; 7; 8; 9]%Z) by (cbn; lia).
      repeat (destruct K as [<-|K]; [first [now left|right; split; [apply Qle_bool_iff; reflexivity|unfold Qclt, Qlt; vm_compute; reflexivity]]|]). destruct K. }
    repeat (apply Forall_cons; [apply M; cbn; lia|]). apply Forall_nil.
Qed.
Example C128_ex_text : bare_macro (fun r => r) (Some (at_ 2 1)) sample_parts =
  Ok (T "1,1,1.5,0.0,0.0*21,1,0.5,0.25,1,0,0.0*5,1,6,0,3,2,30.0*4,1,3,0,0,5,0," ++ [nl] ++ T "0,-4," ++ [nl] ++ T "0,0,0.0*").
Proof. vm_compute. reflexivity. Qed.
(** Lines of rectangles and obrounds: bars between their ends, moved like the other shapes. *)
Theorem C128_lines_partial : forall degrees position parts, Forall (plain_line (origin_of position)) parts ->
  exists macro instrs ps, bare_macro degrees position parts = Ok macro /\ read_macro macro = Ok instrs /\ am_build instrs [] = Ok ps /\
    Forall2 (bar_for (origin_of position)) parts ps.
Proof. exact C128_lines_lemma. Qed.
Print Assumptions C128_lines_partial.
Example C128_lines_ex : Forall (plain_line (origin_of (Some (at_ 2 1))))
  [GLine (at_ 2 1) (at_ 7 1) (FRect (dbl 5 1) (dbl 25 2) no_holes 0) Dark; GLine (at_ 2 1) (at_ 2 (-3)) (FObround (dbl 5 1) (dbl 25 2) no_holes 0) Dark].
Proof.
  assert (S : seen_from (at_ 2 1) (at_ 2 1) = (dbl 0 0, dbl 0 0) /\ seen_from (at_ 2 1) (at_ 7 1) = (dbl 5 0, dbl 0 0) /\ seen_from (at_ 2 1) (at_ 2 (-3)) = (dbl 0 0, dbl (-4) 0)).
  { unfold seen_from. split; [|split]; (apply f_equal2; apply qc_eq_iff; vm_compute; reflexivity). }
  destruct S as (S1 & S2 & S3). cbn [origin_of]. apply Forall_cons; [|apply Forall_cons; [|apply Forall_nil]]; cbn [plain_line]; rewrite S1, ?S2, ?S3; (split; [plain_n|split; split; plain_n]).
Qed.
Example C128_lines_text : bare_macro (fun r => r) (Some (at_ 2 1))
  [GLine (at_ 2 1) (at_ 7 1) (FRect (dbl 5 1) (dbl 25 2) no_holes 0) Dark; GLine (at_ 2 1) (at_ 2 (-3)) (FObround (dbl 5 1) (dbl 25 2) no_holes 0) Dark] =
  Ok (T "2,1,0.5,0.0,0.0,5.0,0.0,0.0*2,1,0.5,0.0,0.0,0.0,-4.0,0.0*").
Proof. vm_compute. reflexivity. Qed.
