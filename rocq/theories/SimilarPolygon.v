(** A hexagon, converted. *)
From Coq Require Import Lra Lia Qreals.
From Verif Require Import PyBase QcLib GeomModel GeomSpec GeomProofs HullSpec CairoModel CairoSpec CairoProofs CairoLayer CairoMore CairoScale MacroGeomModel MacroGeomSpec MacroGeomProofs ShowModel ShowSpec ShowProofs ShowFile ShowMacro ShowExamples CamShowModel CamShowSpec CamShowProofs CamShowExamples SimilarSpec SimilarProofs SimilarFile SimilarExamples.
From Verif Require Import GerberText HeapModel HeapSpec.
From Verif Require GerberEval GerberEvalSpec GerberEvalProofs GerberConv GerberConvSpec ScaleSpec.
Import ListNotations GerberEvalSpec.
Open Scope R_scope.
Open Scope list_scope.

Lemma joined_next (f : nat -> pt) : forall m a from i, (a <= i)%nat -> (Datatypes.S i < a + m)%nat -> In (straight (f i) (f (Datatypes.S i))) (joined from (map f (seq a m))).
Proof.
  induction m as [|m IH]; intros a from i A B; [lia|]. cbn [seq map joined]. right. destruct (Nat.eq_dec a i) as [->|Ne]; [|apply IH; lia].
  destruct m as [|m]; [lia|]. cbn [seq map joined]. now left.
Qed.
Lemma corner_moving f n i : (Datatypes.S i < n)%nat -> f i <> f (Datatypes.S i) -> moving (CairoSpec.sides (map f (seq 0 n))) (f (Datatypes.S i)).
Proof.
  intros L Ne. exists (straight (f i) (f (Datatypes.S i))), 1. split; [unfold CairoSpec.sides; apply joined_next; lia|].
  assert (E1 : straight (f i) (f (Datatypes.S i)) 1 = f (Datatypes.S i)) by (unfold straight; destruct (f (Datatypes.S i)); cbn [fst snd]; f_equal; ring).
  assert (E0 : straight (f i) (f (Datatypes.S i)) 0 = f i) by (unfold straight; destruct (f i); cbn [fst snd]; f_equal; ring).
  split; [intro S; specialize (S 1); rewrite E0, E1 in S; congruence|]. split; [lra|now symmetry].
Qed.

Definition hexagon : list stmt := [SMO true Inch; SAD 10 (T "P") [[zq 2; zq 6]]; SAp 10 false; go 0 0 "D03"].
Definition polygon_mark (n : Z) (r : Qc) (u : unit_) : mark := Stamp (GerberEval.mkObj (GerberEval.ShPolygon n r 0%Qc 0%Qc 0%Qc 0%Qc) (Some (zq 0, zq 0)) Dark u).
Lemma hexagon_image : image fc0 [] hexagon = Some [polygon_mark 6 (zq 1) Inch].
Proof. replace (zq 1) with (zq 2 / zq 2)%Qc by (apply Qc_is_canon; vm_compute; reflexivity). vm_compute. reflexivity. Qed.
Lemma hexagon_declared : ScaleSpec.declared Inch hexagon.
Proof. split; [repeat constructor; discriminate|]. exists [], (tl hexagon). split; [reflexivity|constructor]. Qed.
Definition round_file : list stmt := [SMO true Metric; SAD 10 (T "P") [[to_unit Metric (zq 2); to_unit Metric (zq 6)]]; SAp 10 false; SCoord None (Some (to_unit Metric (zq 0))) (Some (to_unit Metric (zq 0))) None None (Some (T "D03"))].
Lemma round_image : image fc0 [] round_file = Some [polygon_mark 152 (dec 254 1) Metric].
Proof.
  assert (X : image fc0 [] round_file = Some [Stamp (GerberEval.mkObj (GerberEval.ShPolygon 152 (to_unit Metric (zq 2) / zq 2)%Qc 0%Qc 0%Qc 0%Qc 0%Qc) (Some (to_unit Metric (zq 0), to_unit Metric (zq 0))) Dark Metric)]) by (vm_compute; reflexivity).
  rewrite X. unfold polygon_mark. replace (dec 254 1) with (to_unit Metric (zq 2) / zq 2)%Qc by (apply Qc_is_canon; vm_compute; reflexivity).
  replace (to_unit Metric (zq 0)) with (zq 0) by (apply Qc_is_canon; vm_compute; reflexivity). reflexivity.
Qed.
Lemma hexagon_opens : exists f, GerberConv.open_file fc0 hexagon = Ok f.
Proof. destruct (GerberConv.open_file fc0 hexagon) as [f|] eqn:E; [eauto|vm_compute in E; discriminate]. Qed.
Lemma round_opens : exists f, GerberConv.open_file fc0 round_file = Ok f.
Proof. destruct (GerberConv.open_file fc0 round_file) as [f|] eqn:E; [eauto|vm_compute in E; discriminate]. Qed.
Lemma hexagon_converts f : GerberConv.open_file fc0 hexagon = Ok f -> exists f', GerberConv.file_to Metric f = Ok f' /\ map fst (GerberConv.f_stmts f') = round_file.
Proof.
  intros O. assert (X : (do f <- GerberConv.open_file fc0 hexagon; do f' <- GerberConv.file_to Metric f; Ok (map fst (GerberConv.f_stmts f'))) = Ok round_file) by (vm_compute; reflexivity).
  rewrite O in X. cbn [bind] in X. destruct (GerberConv.file_to Metric f) as [f'|]; [|discriminate X]. cbn [bind] in X. apply ok_inj in X. eauto.
Qed.
Lemma polygon_fair n r u : (0 < n)%Z -> 0 <= real r -> Forall fair [polygon_mark n r u].
Proof. intros N R0. apply Forall_cons; [|apply Forall_nil]. split; [discriminate|]. cbn [fair_flash polygon_mark GerberEval.o_shape]. split; [exact N|]. split; [exact R0|]. now left. Qed.
Lemma polygon_extent n r u q : extent (polygon_mark n r u) q <-> disc (0, 0) (real r) q.
Proof. cbn [extent polygon_mark GerberEval.o_pos GerberEval.o_shape flash_extent]. unfold real_pt. cbn [fst snd]. rewrite real_zq. reflexivity. Qed.
Lemma polygon_extents n r u : 0 <= real r -> Forall (fun m => exists q, extent m q) [polygon_mark n r u].
Proof. intro R0. apply Forall_cons; [|apply Forall_nil]. exists (0, 0). apply polygon_extent. unfold disc, dist2. cbn [fst snd]. nra. Qed.
Lemma polygon_box n r u : 0 <= real r -> file_box [polygon_mark n r u] ((- real r, real r), (- real r, real r)).
Proof.
  intro R0. split.
  - intros p (m & [<-|[]] & X). apply polygon_extent in X. apply (proj1 (disc_bounds _ _ R0)) in X. unfold inside in *. cbn [fst snd] in *. lra.
  - unfold touches. cbn [fst snd]. split; [exists (- real r, 0)|split; [exists (real r, 0)|split; [exists (0, - real r)|exists (0, real r)]]]; (split; [|reflexivity]); eexists; (split; [now left|]); apply polygon_extent; unfold disc, dist2; cbn [fst snd]; nra.
Qed.
Lemma polygon_covers fill n r u q : covers fill (polygon_mark n r u) q <-> fill (CairoSpec.sides (regular (0, 0) (Z.to_nat n) (real r) 0)) q.
Proof.
  cbn [covers polygon_mark GerberEval.o_pos GerberEval.o_shape flashed]. unfold real_pt. cbn [fst snd]. rewrite !real_zq, real_zero. unfold with_holes, without, round_hole, rect_hole.
  split; [tauto|]. intro X. split; [split; [exact X|]|]; intros [Y _]; lra.
Qed.
Definition corner (n : nat) (r : R) (i : nat) : pt := at_angle (0, 0) r ((0 + 360 / INR n * INR i) * (PI / 180)).
Lemma corner_is n r i (N I0 a : R) : INR n = N -> INR i = I0 -> (0 + 360 / N * I0) * (PI / 180) = a -> corner n r i = (r * cos a, r * sin a).
Proof. intros <- <- <-. unfold corner, at_angle. cbn [fst snd]. f_equal; ring. Qed.
Ltac inr := rewrite INR_IZR_INZ; reflexivity.
Lemma round_covers r y : 0 < r -> 0 <= y <= r -> hulled (CairoSpec.sides (regular (0, 0) 152 r 0)) (0, y).
Proof.
  intros R0 Y. change (regular (0, 0) 152 r 0) with (map (corner 152 r) (seq 0 152)). pose proof PI_RGT_0 as Pi.
  assert (C38 : corner 152 r 38 = (0, r)) by (rewrite (corner_is 152 r 38 152 38 (PI / 2)); [rewrite cos_PI2, sin_PI2; f_equal; ring|inr|inr|field]).
  assert (C37 : corner 152 r 37 <> corner 152 r 38).
  { rewrite C38. rewrite (corner_is 152 r 37 152 37 (37 / 76 * PI)); [|inr|inr|field]. intro E. injection E as E _. assert (0 < cos (37 / 76 * PI)) by (apply cos_gt_0; lra). nra. }
  assert (C114 : corner 152 r 114 = (0, - r)).
  { rewrite (corner_is 152 r 114 152 114 (PI / 2 + PI)); [rewrite neg_cos, neg_sin, cos_PI2, sin_PI2; f_equal; ring|inr|inr|field]. }
  assert (C113 : corner 152 r 113 <> corner 152 r 114).
  { rewrite C114. rewrite (corner_is 152 r 113 152 113 (113 / 76 * PI)); [|inr|inr|field]. intro E. injection E as E _. assert (cos (113 / 76 * PI) < 0) by (apply cos_lt_0; lra). nra. }
  pose proof (corner_moving (corner 152 r) 152 37 ltac:(lia) C37) as M1. pose proof (corner_moving (corner 152 r) 152 113 ltac:(lia) C113) as M2. rewrite C38 in M1. rewrite C114 in M2.
  intro w. destruct (Rle_dec 0 (snd w)) as [W|W]; [exists (0, r)|exists (0, - r)]; (split; [assumption|]); unfold along; cbn [fst snd]; nra.
Qed.
Lemma hexagon_low r p : 0 < r -> In p (regular (0, 0) 6 r 0) -> snd p <= 88 / 100 * r.
Proof.
  intros R0 J. pose proof (sqrt_sqrt 3 ltac:(lra)) as Q. pose proof (sqrt_pos 3) as Q0. assert (Q1 : sqrt 3 / 2 <= 88 / 100) by nra.
  change (regular (0, 0) 6 r 0) with (map (corner 6 r) (seq 0 6)) in J. cbn [seq map] in J. destruct J as [<-|[<-|[<-|[<-|[<-|[<-|[]]]]]]].
  - rewrite (corner_is 6 r 0 6 0 0); [cbn [snd]; rewrite sin_0; nra|inr|inr|field].
  - rewrite (corner_is 6 r 1 6 1 (PI / 3)); [cbn [snd]; rewrite sin_PI3; nra|inr|inr|field].
  - rewrite (corner_is 6 r 2 6 2 (PI - PI / 3)); [cbn [snd]; rewrite sin_PI_x, sin_PI3; nra|inr|inr|field].
  - rewrite (corner_is 6 r 3 6 3 PI); [cbn [snd]; rewrite sin_PI; nra|inr|inr|field].
  - rewrite (corner_is 6 r 4 6 4 (PI / 3 + PI)); [cbn [snd]; rewrite neg_sin, sin_PI3; nra|inr|inr|field].
  - rewrite (corner_is 6 r 5 6 5 (PI - PI / 3 + PI)); [cbn [snd]; rewrite neg_sin, sin_PI_x, sin_PI3; nra|inr|inr|field].
Qed.
Lemma hexagon_not r p : 0 < r -> 88 / 100 * r < snd p -> ~ hulled (CairoSpec.sides (regular (0, 0) 6 r 0)) p.
Proof.
  intros R0 P H. destruct (H (0, 1)) as (q & (f & t & J & _ & Ht & ->) & L). destruct (sides_from _ _ J) as (u & v & Ju & Jv & ->). apply hexagon_low in Ju, Jv; [|exact R0|exact R0].
  unfold along, straight in L. cbn [fst snd] in L. nra.
Qed.
Lemma real_254 : real (dec 254 1) = 127 / 5.
Proof. unfold real. assert (E : Q2R (this (dec 254 1)) = Q2R (127 # 5)) by (apply Qeq_eqR; vm_compute; reflexivity). rewrite E. unfold Q2R. cbn. lra. Qed.
(** The point above the hexagon is dark in the image of the converted file only. *)
Lemma hexagon_differs img img' s : s = 500 / 127 -> render_whole hulled fc0 (127 / 5 * s) false hexagon = Ok img -> render_whole hulled fc0 s false round_file = Ok img' ->
  let q := pixel 100 ((-1, 1), (-1, 1)) false (0, 9 / 10) in ~ img q /\ img' q.
Proof.
  intros -> R R'. destruct hexagon_opens as (f & O). destruct (opened _ _ _ O) as (st & l1 & E). destruct round_opens as (f' & O'). destruct (opened _ _ _ O') as (st' & l1' & E').
  assert (R1 : real (zq 1) = 1) by apply real_zq. pose proof real_254 as R2. replace (127 / 5 * (500 / 127)) with 100 in R by lra. cbn zeta. split.
  - destruct (shown_opened hulled fc0 100 hexagon st l1 _ _ hulled_sensible ltac:(lra) E hexagon_image (polygon_fair 6 (zq 1) Inch ltac:(lia) ltac:(lra)) (polygon_extents 6 (zq 1) Inch ltac:(lra)) (polygon_box 6 (zq 1) Inch ltac:(lra))) as (i & Ri & H).
    { unfold within. cbn [fst snd]. rewrite R1. lra. }
    rewrite R in Ri. injection Ri as <-. rewrite R1 in H. change (- (1)) with (-1) in H.
    assert (N : ~ covers hulled (polygon_mark 6 (zq 1) Inch) (0, 9 / 10)).
    { rewrite polygon_covers, R1. apply hexagon_not; cbn [snd]; lra. }
    rewrite H.
    + intros (m1 & m & m2 & Em & _ & C & _). destruct m1 as [|? [|? ?]]; try discriminate. injection Em as <- <-. contradiction.
    + intros m x [<-|[]] P X. exfalso. apply N. cbn [piece polygon_mark] in P. subst x. exact X.
  - destruct (shown_opened hulled fc0 (500 / 127) round_file st' l1' _ _ hulled_sensible ltac:(lra) E' round_image (polygon_fair 152 (dec 254 1) Metric ltac:(lia) ltac:(lra)) (polygon_extents 152 (dec 254 1) Metric ltac:(lra)) (polygon_box 152 (dec 254 1) Metric ltac:(lra))) as (i & Ri & H).
    { unfold within. cbn [fst snd]. rewrite R2. lra. }
    rewrite R' in Ri. injection Ri as <-. rewrite R2 in H.
    replace (pixel 100 (-1, 1, (-1, 1)) false (0, 9 / 10)) with (pixel (500 / 127) (- (127 / 5), 127 / 5, (- (127 / 5), 127 / 5)) false (0, 1143 / 50)) by (unfold pixel; cbn [fst snd]; f_equal; lra).
    assert (N : forall y, 0 <= y <= 127 / 5 -> covers hulled (polygon_mark 152 (dec 254 1) Metric) (0, y)).
    { intros y Y. apply polygon_covers. rewrite R2. apply round_covers; lra. }
    apply H.
    + intros m x [<-|[]] P X. cbn [piece polygon_mark] in P. subst x. exists (0, 127 / 5). split; [apply N; lra|cbn [snd]; lra].
    + exists [], (polygon_mark 152 (dec 254 1) Metric), []. split; [reflexivity|]. split; [reflexivity|]. split; [apply N; lra|intros m []].
Qed.
