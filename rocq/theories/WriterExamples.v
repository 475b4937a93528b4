(** Rendered drawings used as examples and counterexamples. *)
From Verif Require Import PyBase QcLib NumModel NumSpec MacroModel GerberText GerberTextSpec GerberEval GerberEvalSpec WriterModel WriterSpec WriterProofs WriterRound WriterFile.
Open Scope Qc_scope.
Open Scope list_scope.

(** A line and an arc drawn with a circle, a clear flash of a rectangle with a round hole, a polygon with a
    rectangular hole, and a region of two lines and an arc. *)
Definition no_centre : centre_fun := fun _ _ _ _ => None.
Definition pt (x y : Z) : point := (zq x, zq y).
Definition pen : option figure := Some (FCircle (zq 1) no_holes).
Definition drawing : list item :=
  [mkItem (Some (T "outline")) (TStroke (WLine (pt 0 0) (pt 5 0) pen None));
   mkItem None (TStroke (WArc (pt 5 0) (pt 5 4) (pt 5 2) Counterclockwise pen MultiQ (Some Dark)));
   mkItem None (TFlash (FRect (zq 3) (zq 2) (Some (zq 1), Some 0, Some 0) 0) (pt 5 7) (Some Clear));
   mkItem None (TRegion [WLine (pt 1 1) (pt 2 1) None None; WLine (pt 2 1) (pt 2 2) None None; WArc (pt 2 2) (pt 1 1) (pt 2 1) Counterclockwise None MultiQ None] None);
   mkItem None (TFlash (FPolygon 6 (zq 2) (zq 30) (None, Some (zq 1), Some (zq 1))) (pt 5 7) None)].
Definition settings34 : pset := mkPset Leading (2, 4)%nat true Metric.
Ltac differ := let E := fresh in intro E;
  first [apply (f_equal (fun p : point => this (fst p))) in E; vm_compute in E; discriminate E | apply (f_equal (fun p : point => this (snd p))) in E; vm_compute in E; discriminate E].
Lemma pen_drawable f : pen = Some f -> drawable f.
Proof. intro E. injection E as <-. cbn. exists 0, 0, 0. left. unfold absent. auto 10. Qed.
Lemma drawing_supported : Forall (supported no_centre default_options) drawing.
Proof.
  unfold drawing. constructor; [|constructor; [|constructor; [|constructor; [|constructor; [|constructor]]]]]; unfold supported; cbn [i_thing].
  - split; [|discriminate]. split; [exact pen_drawable|differ].
  - split; [|discriminate]. split; [exact pen_drawable|exact Logic.I].
  - exists (ShRect (zq 3) (zq 2) (zq 1) 0 0). cbn. repeat (split; [reflexivity|]). right. left. unfold absent. repeat (split; [solve [auto|reflexivity]|]). reflexivity.
  - split; [discriminate|]. split; [cbn; auto|]. split; [|split; [|discriminate]].
    + repeat constructor; cbn; try discriminate; differ.
    + repeat constructor; cbn; auto.
  - exists (ShPolygon 6 (zq 2) (zq 30) 0 (zq 1) (zq 1)). cbn. repeat (split; [reflexivity|]). right. right. unfold absent. repeat (split; [solve [auto|reflexivity]|]). reflexivity.
Qed.

Definition read_units (m : mark) : unit_ := match m with Stroke (VLine _ _ _ _ u) | Stroke (VArc _ _ _ _ _ _ _ u) | Fill _ _ u => u | Stamp o => o_units o end.
Definition read_hole (m : mark) : option Q :=
  match m with Stroke (VLine _ _ (Some (mkObj (ShRect _ _ d _ _) _ _ _)) _ _) => Some (this d) | _ => None end.
Definition dot : item := mkItem None (TStroke (WLine (pt 1 1) (pt 1 1) pen None)).
Definition line_with (f : figure) : item := mkItem None (TStroke (WLine (pt 1 1) (pt 2 1) (Some f) None)).
Definition holed : figure := FRect (zq 2) (zq 2) (Some (zq 1), Some 0, Some 0) 0.
Definition turned : item := mkItem None (TFlash (FRect (zq 3) (zq 1) no_holes (zq 90)) (pt 0 0) None).
Definition gap : item := mkItem None (TRegion [WLine (pt 0 0) (pt 1 0) None None; WLine (pt 1 0) (pt 1 1) None None; WLine (pt 5 5) (pt 6 5) None None] None).
Definition zero_hole : figure := FCircle (zq 1) (Some 0, Some 0, Some 0).
Definition none_hole : figure := FCircle (zq 1) (None, Some 0, Some 0).

Lemma refuted34 :
  ~ round_trips no_centre default_options pset0 Inch [dot] /\
  ~ round_trips no_centre default_options pset0 Inch [line_with holed] /\
  ~ round_trips no_centre default_options pset0 Inch [turned] /\
  ~ round_trips no_centre default_options settings34 Metric [line_with (FCircle (zq 1) no_holes)] /\
  ~ round_trips no_centre default_options pset0 Inch [gap] /\
  ~ round_trips no_centre default_options pset0 Inch [line_with (FPolygon 6 (zq 1) 0 no_holes)].
Proof.
  split; [apply no_trip_count; vm_compute; discriminate|].
  split; [apply (no_trip_one read_hole) with (a := Some (this 0)); [vm_compute; reflexivity|]|].
  { intros m R. destruct m as [[a b ap pol u|]| |]; cbn in R; try contradiction. destruct R as (_ & _ & A & _ & _). destruct (A _ eq_refl) as (s & F & ->).
    unfold holed in F. destruct s; cbn [figure_is] in F; try contradiction. destruct F as (_ & _ & _ & H). cbn [read_hole].
    destruct H as [([X|X] & _)|[(X & _)|([X|X] & _)]]; try discriminate X; try (apply (f_equal (option_map this)) in X; vm_compute in X; discriminate X).
    injection X as <-. vm_compute. discriminate. }
  split; [apply (no_trip_one (fun _ => tt)) with (a := tt); [vm_compute; reflexivity|]|].
  { intros m R. destruct m; cbn in R; try contradiction. destruct R as (s & F & _). destruct s; cbn in F; try contradiction. destruct F as (_ & _ & E & _).
    apply (f_equal this) in E. vm_compute in E. discriminate E. }
  split; [apply (no_trip_one read_units) with (a := Inch); [vm_compute; reflexivity|]|].
  { intros m R. destruct m as [[a b ap pol u|]| |]; cbn in R; try contradiction. destruct R as (_ & _ & _ & _ & ->). discriminate. }
  split; apply no_trip_count; vm_compute; discriminate.
Qed.
Lemma refuted35 : exists shape c1 c2,
  figure_is none_hole shape /\ figure_is zero_hole shape /\
  render_all default_options [mkItem None (TFlash none_hole (pt 0 0) None)] (new_context pset0) = Ok c1 /\
  render_all default_options [mkItem None (TFlash zero_hole (pt 0 0) None)] c1 = Ok c2 /\
  current_selection (rev (statements c1)) <> current_selection (rev (statements c2)).
Proof.
  exists (ShCircle (zq 1) 0 0 0). eexists _, _. split; [|split; [|split; [reflexivity|split; [reflexivity|]]]].
  - split; [reflexivity|]. left. unfold absent. auto 10.
  - split; [reflexivity|]. left. unfold absent. auto 10.
  - vm_compute. discriminate.
Qed.
Lemma settings34_ok : announceable settings34.
Proof. split; [discriminate|]. cbn. unfold usable_format. repeat split; try lia; try discriminate. Qed.
Lemma grid34 n : (-99 <= n <= 99)%Z -> on_grid settings34 (zq n).
Proof.
  intro H. exists (n * 10000)%Z. split; [|cbn; lia]. unfold grid. cbn [settings34 p_fmt snd].
  fold (zq (n * 10000)). rewrite zq_mult. assert (E : ten 4 = zq 10000) by (apply Qc_decomp; reflexivity). rewrite E. field. discriminate.
Qed.
Lemma digits34 n : (-99 <= n <= 99)%Z -> at_most_digits 4 (zq n).
Proof. intro H. exists n, 0%nat, 0%nat. split; [cbn; lia|]. reflexivity. Qed.
Lemma drawing_exact : Forall (item_exact settings34) drawing.
Proof.
  assert (G : forall x y, (-99 <= x <= 99)%Z -> (-99 <= y <= 99)%Z -> point_on_grid settings34 (pt x y)) by (intros; split; now apply grid34).
  assert (O : forall a b, point_on_grid settings34 (a, b) -> forall a' b', this a = this a' -> this b = this b' -> point_on_grid settings34 (a', b')).
  { intros a b P a' b' E1 E2. apply Qc_decomp in E1, E2. now subst. }
  assert (H0 : at_most_digits 4 0) by apply (digits34 0 ltac:(lia)).
  assert (H1 : at_most_digits 4 (zq 1)) by apply (digits34 1 ltac:(lia)).
  assert (HH : forall v : Qc, None = Some v -> at_most_digits 4 v) by discriminate.
  assert (HS : forall w v : Qc, at_most_digits 4 w -> Some w = Some v -> at_most_digits 4 v) by (intros w v X E; injection E as <-; exact X).
  assert (P : forall f, pen = Some f -> figure_exact f) by (intros f E; injection E as <-; split; [exact H1|apply no_holes_exact]).
  assert (N : forall f, @None figure = Some f -> figure_exact f) by discriminate.
  unfold drawing. constructor; [|constructor; [|constructor; [|constructor; [|constructor; [|constructor]]]]]; (split; [intros t E; try discriminate E|]); cbn [i_thing i_comment] in *.
  - injection E as <-. vm_compute. repeat (constructor; [intuition discriminate|]). constructor.
  - split; [apply G; lia|]. split; [apply G; lia|]. split; [exact P|exact Logic.I].
  - split; [apply G; lia|]. split; [apply G; lia|]. split; [exact P|]. apply (O _ _ (G 0%Z 2%Z ltac:(lia) ltac:(lia))); reflexivity.
  - split; [|apply G; lia]. split; [apply digits34; lia|]. split; [apply digits34; lia|]. repeat constructor; intros v E; injection E as <-; assumption.
  - constructor; [|constructor; [|constructor; [|constructor]]]; (split; [apply G; lia|]); (split; [apply G; lia|]); (split; [exact N|]); try exact Logic.I.
    apply (O _ _ (G 0%Z (-1)%Z ltac:(lia) ltac:(lia))); reflexivity.
  - split; [|apply G; lia]. split; [apply digits34; lia|]. split; [change (zq 2 * zq 2) with (zq 4); apply digits34; lia|]. split; [apply digits34; lia|].
    repeat constructor; intros v E; try discriminate E; injection E as <-; assumption.
Qed.
