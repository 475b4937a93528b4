(** Images of converted drill files; examples. *)
From Coq Require Import Lra Lia Qreals.
From Verif Require Import PyBase QcLib GeomModel GeomSpec GeomProofs CairoModel CairoSpec CairoProofs CairoLayer CairoMore CairoScale MacroGeomModel MacroGeomProofs ShowModel ShowSpec ShowFile ShowMacro CamShowModel CamShowSpec CamShowProofs CamShowDrill ShowExamples CamShowExamples SimilarSpec SimilarProofs SimilarFile SimilarExact SimilarExamples DrillShowModel DrillShowSpec DrillShowProofs.
From Verif Require Import GerberText.
From Verif Require ExcellonModel ExcellonFile ExcellonSpec ExcellonMore.
Import ListNotations.
Open Scope R_scope.
Open Scope list_scope.

(** ** Converted files *)
Lemma real_factor u d : real (ExcellonSpec.factor u d) = ratio u * real d.
Proof.
  unfold ExcellonSpec.factor, ratio. destruct u.
  - unfold Qcdiv. rewrite MacroGeomProofs.real_mult. replace (real (/ Q2Qc (254 # 10))%Qc) with (10 / 254); [ring|]. unfold real, Q2R. cbn. lra.
  - rewrite MacroGeomProofs.real_mult. replace (real (Q2Qc (254 # 10))) with (254 / 10); [ring|]. unfold real, Q2R. cbn. lra.
Qed.
Lemma ratio_pos u : 0 < ratio u.
Proof. destruct u; cbn; lra. Qed.
Lemma converted_tool u f f' h t : ExcellonSpec.consistent f -> ExcellonModel.xs_units (ExcellonModel.xf_set f) <> u -> ExcellonFile.convert u f = Ok f' -> In h (ExcellonModel.xf_hits f) ->
  ExcellonSpec.tool_of (ExcellonModel.xf_store f) h = Some t -> exists t', ExcellonSpec.tool_of (ExcellonModel.xf_store f') h = Some t' /\ ExcellonModel.t_diam t' = option_map (ExcellonSpec.factor u) (ExcellonModel.t_diam t).
Proof.
  intros C N E J Ht. destruct (ExcellonMore.C42_lemma u f C N) as (f0 & E0 & _ & _ & Tl & _). rewrite E in E0. apply ok_inj in E0. subst f0.
  destruct C as (_ & _ & C). destruct (C h J) as (l & t0 & Hl & G & L).
  assert (X : forall s, ExcellonSpec.tool_of s h = nth_error s l) by (intro s; destruct h as [o c|o a b r]; subst o; reflexivity).
  rewrite X in *. destruct (Tl l t L Ht) as (t' & G' & R & _). exists t'. auto.
Qed.
Lemma consistent_tool f h : ExcellonSpec.consistent f -> In h (ExcellonModel.xf_hits f) -> exists t, ExcellonSpec.tool_of (ExcellonModel.xf_store f) h = Some t.
Proof. intros (_ & _ & C) J. destruct (C h J) as (l & t & Hl & G & _). exists t. destruct h as [o c|o a b r]; subst o; exact G. Qed.
Lemma converted_cuts u f f' : ExcellonSpec.consistent f -> ExcellonModel.xs_units (ExcellonModel.xf_set f) <> u -> ExcellonFile.convert u f = Ok f' -> forall p, cuts f' p <-> swollen (ratio u) f p.
Proof.
  intros C N E p. destruct (ExcellonMore.C42_lemma u f C N) as (f0 & E0 & _ & _ & _ & _ & Hh & _). rewrite E in E0. apply ok_inj in E0. subst f0. unfold cuts, swollen. split.
  - intros (h & J & t' & d' & Ht' & Hd' & X). rewrite Hh in J. destruct (consistent_tool f h C J) as (t & Ht). destruct (converted_tool u f f' h t C N E J Ht) as (t1 & Ht1 & Hd1).
    rewrite Ht' in Ht1. injection Ht1 as <-. rewrite Hd' in Hd1. destruct (ExcellonModel.t_diam t) as [d|] eqn:Hd; [|discriminate]. injection Hd1 as ->. exists h, t, d. split; [exact J|]. split; [exact Ht|]. split; [exact Hd|].
    rewrite real_factor in X. exact X.
  - intros (h & t & d & J & Ht & Hd & X). destruct (converted_tool u f f' h t C N E J Ht) as (t1 & Ht1 & Hd1). rewrite Hd in Hd1. exists h. rewrite Hh. split; [exact J|]. exists t1, (ExcellonSpec.factor u d).
    split; [exact Ht1|]. split; [exact Hd1|]. rewrite real_factor. exact X.
Qed.
Lemma converted_drills u f f' : drills f -> ExcellonSpec.consistent f -> ExcellonModel.xs_units (ExcellonModel.xf_set f) <> u -> ExcellonFile.convert u f = Ok f' -> drills f'.
Proof.
  intros [Co D] C N E. destruct (ExcellonMore.C42_lemma u f C N) as (f0 & E0 & _ & _ & _ & _ & Hh & _). rewrite E in E0. apply ok_inj in E0. subst f0. split.
  - intros h J. rewrite Hh in J. destruct (Co h J) as [A B]. split; [|exact B]. destruct (consistent_tool f h C J) as (t & Ht). destruct (converted_tool u f f' h t C N E J Ht) as (t1 & -> & _). discriminate.
  - intros h t' J Ht'. rewrite Hh in J. destruct (consistent_tool f h C J) as (t & Ht). destruct (converted_tool u f f' h t C N E J Ht) as (t1 & Ht1 & Hd1). rewrite Ht' in Ht1. injection Ht1 as <-.
    destruct (D h t J Ht) as (d & Hd & P). rewrite Hd in Hd1. exists (ExcellonSpec.factor u d). split; [exact Hd1|]. rewrite real_factor. apply Rmult_lt_0_compat; [apply ratio_pos|exact P].
Qed.
Lemma converted_shown fill u f s b : filling fill -> drills f -> ExcellonSpec.consistent f -> ExcellonModel.xs_units (ExcellonModel.xf_set f) <> u -> 0 < s ->
  bounds b (swollen (ratio u) f) -> within 100000000000 b ->
  exists f' img, ExcellonFile.convert u f = Ok f' /\ render_drills fill s false f' = Ok img /\ (forall p, below_cuts f' s p -> (img (pixel s b false p) <-> swollen (ratio u) f p)) /\
    ExcellonFile.convert (ExcellonModel.xs_units (ExcellonModel.xf_set f)) f' = Ok f.
Proof.
  intros Fi D C N S B W. destruct (ExcellonMore.C42_lemma u f C N) as (f' & E & _ & _ & _ & _ & _ & _ & Bk). pose proof (converted_cuts u f f' C N E) as Q.
  destruct (drills_shown fill f' s b Fi (converted_drills u f f' D C N E) S (bounds_ext b _ _ (fun p => iff_sym (Q p)) B) W) as (img & R & H). exists f', img. split; [exact E|]. split; [exact R|]. split; [|exact Bk].
  intros p Bl. rewrite <- (Q p). now apply H.
Qed.

(** ** Files of round holes of one size *)
Definition bit_of (d : Qc) (u : unit_) : ExcellonModel.tool := ExcellonModel.mkTool 1 None None None None (Some d) None None 0 (ExcellonModel.mkXset u (2, 4)%nat ExcellonModel.ZLead ExcellonModel.Absolute).
Definition holes (d : Qc) (u : unit_) (l : list (Z * Z)) : ExcellonModel.xfile :=
  ExcellonModel.mkXfile (ExcellonModel.mkXset u (2, 4)%nat ExcellonModel.ZLead ExcellonModel.Absolute) [] [(1%Z, 0%nat)] (map (fun p => ExcellonModel.Hit (Some 0%nat) (zq (fst p), zq (snd p))) l) [bit_of d u].
Definition zpt (p : Z * Z) : pt := (IZR (fst p), IZR (snd p)).
Lemma holes_cuts d u l p : cuts (holes d u l) p <-> exists c, In c l /\ disc (zpt c) (real d / 2) p.
Proof.
  unfold cuts, holes, cut. cbn [ExcellonModel.xf_hits ExcellonModel.xf_store]. split.
  - intros (h & J & t & w & Ht & Hw & X). apply in_map_iff in J as (c & <- & J). injection Ht as <-. injection Hw as <-. exists c. split; [exact J|]. unfold real_pt in X. cbn [fst snd] in X. rewrite !real_zq in X. exact X.
  - intros (c & J & X). eexists. split; [exact (in_map _ _ _ J)|]. exists (bit_of d u), d. split; [reflexivity|]. split; [reflexivity|]. unfold real_pt. cbn [fst snd]. rewrite !real_zq. exact X.
Qed.
Lemma holes_drills d u l : 0 < real d -> drills (holes d u l).
Proof.
  intro P. split.
  - intros h J. apply in_map_iff in J as (c & <- & J). split; [discriminate|exact I].
  - intros h t J Ht. apply in_map_iff in J as (c & <- & J). injection Ht as <-. exists d. auto.
Qed.
(** The image, pixel for pixel, where the file marks something. *)
Lemma holes_pixel fill d u l s b img p : filling fill -> 0 < s -> 0 < real d -> bounds b (cuts (holes d u l)) -> within 100000000000 b -> inside b p -> render_drills fill s false (holes d u l) = Ok img ->
  (img (pixel s b false p) <-> exists c, In c l /\ disc (zpt c) (real d / 2) p /\ clip (set_bounds s b false false) (circle_box (zpt c) (real d)) (s * fst p, s * snd p - s * fst (snd b))).
Proof.
  intros Fi S P B W I0 R. destruct (drills_exact fill _ s b Fi (holes_drills d u l P) S B W) as (img' & R' & _ & H). rewrite R in R'. apply ok_inj in R'. subst img'. rewrite H. unfold drilled_pixel.
  destruct (box_order _ _ B) as [X Y]. assert (Sz : size (set_bounds s b false false) = (snd (fst b) - fst (fst b), snd (snd b) - fst (snd b))) by (cbn [set_bounds size fst snd]; rewrite !Rabs_right by lra; reflexivity).
  assert (Q : forall c, exists x, drill_item [bit_of d u] (ExcellonModel.Hit (Some 0%nat) (zq (fst c), zq (snd c))) = Ok (Single x) /\
    (masked (set_bounds s b false false) (bbox x) (fun v => prim_shape fill (what x) (fst v / s, snd v / s)) (pixel s b false p) <->
     disc (zpt c) (real d / 2) p /\ clip (set_bounds s b false false) (circle_box (zpt c) (real d)) (s * fst p, s * snd p - s * fst (snd b)))).
  { intro c. eexists. split; [reflexivity|]. cbn [bbox what].
    assert (Ec : real_pt (zq (fst c), zq (snd c)) = zpt c) by (unfold real_pt, zpt; cbn [fst snd]; now rewrite !real_zq). rewrite Ec.
    match goal with |- masked _ ?bb ?ct _ <-> _ => pose proof (masked_at (set_bounds s b false false) b bb ct p S I0 eq_refl Sz) as Ma end.
    cbn [set_bounds scale mirror] in Ma. fold (set_bounds s b false false) in Ma. unfold origin_px, scale_point in Ma. cbn [set_bounds CairoModel.origin scale fst snd] in Ma.
    rewrite Ma. replace (fst (snd b) * s) with (s * fst (snd b)) by ring.
    assert (Pr : prim_shape fill (PCircle (zpt c) (real d) 0 0 0 0) (fst (magnify s p) / s, snd (magnify s p) / s) <-> disc (zpt c) (real d / 2) p).
    { replace (fst (magnify s p) / s, snd (magnify s p) / s) with p by (destruct p; unfold magnify; cbn [fst snd]; f_equal; field; lra). cbn [prim_shape].
      unfold with_holes, without, round_hole, rect_hole. split; [now intros [[Z _] _]|]. intro Z. split; [split; [exact Z|]|]; intros [Z' _]; lra. }
    rewrite Pr. reflexivity. }
  cbn [holes ExcellonModel.xf_hits ExcellonModel.xf_store]. split.
  - intros (h & x & J & E & M). apply in_map_iff in J as (c & <- & J). destruct (Q c) as (x' & E' & Z). rewrite E in E'. injection E' as <-. exists c. split; [exact J|]. now apply Z.
  - intros (c & J & Z0). destruct (Q c) as (x & E & Z). exists (ExcellonModel.Hit (Some 0%nat) (zq (fst c), zq (snd c))), x. split; [exact (in_map (fun p => ExcellonModel.Hit (Some 0%nat) (zq (fst p), zq (snd p))) _ _ J)|].
    split; [exact E|]. now apply Z.
Qed.
Lemma hole_bounds d u c : 0 < real d -> bounds ((IZR (fst c) - real d / 2, IZR (fst c) + real d / 2), (IZR (snd c) - real d / 2, IZR (snd c) + real d / 2)) (cuts (holes d u [c])).
Proof.
  intro P. eapply bounds_ext; [|exact (disc_bounds (zpt c) (real d / 2) ltac:(lra))]. intro p. rewrite holes_cuts. split; [|intros (c1 & [<-|[]] & X); exact X]. intro X. exists c. split; [now left|exact X].
Qed.

(** ** A hole moved by one unit *)
Definition big : ExcellonModel.xfile := holes (zq 4) Inch [(0, 2)%Z].
Definition big_moved : ExcellonModel.xfile := holes (zq 4) Inch [(0, 3)%Z].
Lemma big_offset : ExcellonFile.offset (zq 0) (zq 1) big = Ok big_moved.
Proof. vm_compute. reflexivity. Qed.
Lemma big_bounds : bounds ((-2, 2), (0, 4)) (cuts big).
Proof.
  pose proof (hole_bounds (zq 4) Inch (0, 2)%Z ltac:(rewrite real_zq; lra)) as B. cbn [fst snd] in B. rewrite real_zq in B.
  replace (IZR 0 - 4 / 2) with (-2) in B by lra. replace (IZR 0 + 4 / 2) with 2 in B by lra. replace (2 - 4 / 2) with 0 in B by lra. replace (2 + 4 / 2) with 4 in B by lra. exact B.
Qed.
Lemma big_moved_bounds : bounds ((-2, 2), (1, 5)) (cuts big_moved).
Proof.
  pose proof (hole_bounds (zq 4) Inch (0, 3)%Z ltac:(rewrite real_zq; lra)) as B. cbn [fst snd] in B. rewrite real_zq in B.
  replace (IZR 0 - 4 / 2) with (-2) in B by lra. replace (IZR 0 + 4 / 2) with 2 in B by lra. replace (3 - 4 / 2) with 1 in B by lra. replace (3 + 4 / 2) with 5 in B by lra. exact B.
Qed.
Lemma big_cut fill img : filling fill -> render_drills fill (5 / 8) false big = Ok img -> ~ img (pixel (5 / 8) ((-2, 2), (0, 4)) false (0, 39 / 10)).
Proof.
  intros Fi R X. apply (holes_pixel fill (zq 4) Inch [(0, 2)%Z] (5 / 8) _ img (0, 39 / 10) Fi ltac:(lra) ltac:(rewrite real_zq; lra) big_bounds) in X; [|unfold within; cbn [fst snd]; lra|unfold inside; cbn [fst snd]; lra|exact R].
  destruct X as (c & [<-|[]] & _ & Y). unfold clip, c_rectangle, origin_px, scale_point in Y. cbn zeta in Y. cbn [set_bounds scale CairoModel.origin fst snd zpt] in Y. destruct Y as [_ [_ Y]].
  unfold circle_box, BoxModel.circle_box, BoxModel.around, half, zpt in Y. cbn [fst snd] in Y. rewrite real_zq in Y.
  assert (F1 : floor (0 * (5 / 8)) = 0) by (apply (floor_is 0); lra). assert (F2 : ceil (0 * (5 / 8)) = 0) by (unfold ceil; rewrite (floor_is 0); lra).
  rewrite F1, F2 in Y. rewrite (floor_is 0 (5 / 8 * _ - 0)), (floor_is 2) in Y by lra. rewrite Rabs_right in Y by lra. lra.
Qed.
Lemma big_kept fill img : filling fill -> render_drills fill (5 / 8) false big_moved = Ok img -> img (pixel (5 / 8) ((-2, 2), (0, 4)) false (0, 39 / 10)).
Proof.
  intros Fi R. replace (pixel (5 / 8) ((-2, 2), (0, 4)) false (0, 39 / 10)) with (pixel (5 / 8) (-2, 2, (1, 5)) false (0, 49 / 10)) by (unfold pixel; cbn [fst snd]; f_equal; lra).
  apply (holes_pixel fill (zq 4) Inch [(0, 3)%Z] (5 / 8) _ img (0, 49 / 10) Fi ltac:(lra) ltac:(rewrite real_zq; lra) big_moved_bounds); [unfold within; cbn [fst snd]; lra|unfold inside; cbn [fst snd]; lra|exact R|].
  exists (0, 3)%Z. split; [now left|]. split; [unfold disc, dist2, zpt; cbn [fst snd]; rewrite real_zq; lra|].
  unfold clip, c_rectangle, origin_px, scale_point. cbn zeta. cbn [set_bounds scale CairoModel.origin fst snd zpt]. unfold circle_box, BoxModel.circle_box, BoxModel.around, half, zpt. cbn [fst snd]. rewrite real_zq.
  assert (F1 : floor (1 * (5 / 8)) = 0) by (apply (floor_is 0); lra). assert (F2 : ceil (1 * (5 / 8)) = 1) by (unfold ceil; rewrite (floor_is (-1)); lra).
  rewrite F1, F2. rewrite (floor_is (-2) (5 / 8 * _)), (floor_is (-1) (5 / 8 * _ - 1)), (floor_is 3) by lra.
  match goal with |- context [ceil ?x] => assert (F3 : ceil x = 2) by (unfold ceil; rewrite (floor_is (-2)); lra) end. rewrite F3, !Rabs_right by lra. lra.
Qed.

(** ** Two holes, converted *)
Lemma pair_bounds d u w : 0 < real d -> (0 <= w)%Z -> bounds ((- (real d / 2), IZR w + real d / 2), (- (real d / 2), real d / 2)) (cuts (holes d u [(0, 0)%Z; (w, 0)%Z])).
Proof.
  intros P Wp. apply IZR_le in Wp. split.
  - intros p C. apply holes_cuts in C as (c & [<-|[<-|[]]] & X); apply (proj1 (disc_bounds _ (real d / 2) ltac:(lra))) in X; unfold inside, zpt in *; cbn [fst snd] in *; lra.
  - assert (X : forall c p, In c [(0, 0)%Z; (w, 0)%Z] -> disc (zpt c) (real d / 2) p -> cuts (holes d u [(0, 0)%Z; (w, 0)%Z]) p) by (intros c p J Y; apply holes_cuts; eauto).
    unfold touches. cbn [fst snd].
    split; [exists (- (real d / 2), 0)|split; [exists (IZR w + real d / 2, 0)|split; [exists (0, - (real d / 2))|exists (0, real d / 2)]]]; (split; [|reflexivity]).
    + apply (X (0, 0)%Z); [now left|]. unfold disc, dist2, zpt. cbn [fst snd]. lra.
    + apply (X (w, 0)%Z); [right; now left|]. unfold disc, dist2, zpt. cbn [fst snd]. lra.
    + apply (X (0, 0)%Z); [now left|]. unfold disc, dist2, zpt. cbn [fst snd]. lra.
    + apply (X (0, 0)%Z); [now left|]. unfold disc, dist2, zpt. cbn [fst snd]. lra.
Qed.
Definition wide : ExcellonModel.xfile := holes (zq 2) Inch [(0, 0)%Z; (10, 0)%Z].
Definition wide_metric : ExcellonModel.xfile := holes (Q2Qc (254 # 5)) Metric [(0, 0)%Z; (10, 0)%Z].
Lemma wide_converted : ExcellonFile.convert Metric wide = Ok wide_metric.
Proof. vm_compute. reflexivity. Qed.
Lemma wide_consistent : ExcellonSpec.consistent wide.
Proof.
  split; [intros s u []|]. split.
  - intros l t [(n & [E|[]])|(u & [])] G; injection E as <- <-. injection G as <-. reflexivity.
  - intros h [<-|[<-|[]]]; exists 0%nat, (bit_of (zq 2) Inch); (split; [reflexivity|]); (split; [reflexivity|]); left; exists 1%Z; now left.
Qed.
Lemma wide_drills : drills wide.
Proof. apply holes_drills. rewrite real_zq. lra. Qed.
Lemma wide_bounds : bounds ((-1, 11), (-1, 1)) (cuts wide).
Proof.
  pose proof (pair_bounds (zq 2) Inch 10 ltac:(rewrite real_zq; lra) ltac:(lia)) as B. rewrite real_zq in B. replace (- (2 / 2)) with (-1) in B by lra. replace (10 + 2 / 2) with 11 in B by lra. replace (2 / 2) with 1 in B by lra. exact B.
Qed.
Lemma metric_size : real (Q2Qc (254 # 5)) = 254 / 5.
Proof. unfold real, Q2R. cbn. lra. Qed.
Lemma metric_bounds : bounds ((- (254 / 10), 354 / 10), (- (254 / 10), 254 / 10)) (cuts wide_metric).
Proof.
  pose proof (pair_bounds (Q2Qc (254 # 5)) Metric 10 ltac:(rewrite metric_size; lra) ltac:(lia)) as B. rewrite metric_size in B.
  replace (254 / 5 / 2) with (254 / 10) in B by lra. replace (10 + 254 / 10) with (354 / 10) in B by lra. exact B.
Qed.
Lemma wide_swollen : bounds ((- (254 / 10), 354 / 10), (- (254 / 10), 254 / 10)) (swollen (ratio Metric) wide).
Proof. eapply bounds_ext; [|exact metric_bounds]. intro p. apply converted_cuts; [exact wide_consistent|discriminate|exact wide_converted]. Qed.
Lemma wide_below : below_cuts wide 10 (10, 0).
Proof.
  intros h [<-|[<-|[]]] (t & d & Et & Ed & X); injection Et as <-; injection Ed as <-; unfold real_pt in X; cbn [fst snd] in X; rewrite !real_zq in X.
  - unfold disc, dist2 in X. cbn [fst snd] in X. exfalso. lra.
  - exists (10, 1). split; [|cbn [snd]; lra]. exists (bit_of (zq 2) Inch), (zq 2). split; [reflexivity|]. split; [reflexivity|]. unfold real_pt. cbn [fst snd]. rewrite !real_zq. unfold disc, dist2. cbn [fst snd]. lra.
Qed.
Lemma wide_hole : cuts wide (10, 0).
Proof. apply holes_cuts. exists (10, 0)%Z. split; [right; now left|]. unfold disc, dist2, zpt. cbn [fst snd]. rewrite real_zq. lra. Qed.
Lemma wide_lost fill img : filling fill -> render_drills fill (10 / ratio Metric) false wide_metric = Ok img -> ~ img (pixel 10 ((-1, 11), (-1, 1)) false (10, 0)).
Proof.
  intros Fi R X. destruct (drills_exact fill wide_metric (10 / ratio Metric) _ Fi (holes_drills _ _ _ ltac:(rewrite metric_size; lra)) ltac:(cbn; lra) metric_bounds) as (img' & R' & _ & H); [unfold within; cbn [fst snd]; lra|].
  rewrite R in R'. apply ok_inj in R'. subst img'. apply H in X. destruct X as (h & x & _ & _ & (Q & _)). unfold on_surface, size_px, scale_point, pixel in Q. cbn [set_bounds size scale fst snd ratio] in Q.
  rewrite !Rabs_right in Q by lra. lra.
Qed.
Lemma big_drills : drills big.
Proof. apply holes_drills. rewrite real_zq. lra. Qed.
Lemma metric_drills : drills wide_metric.
Proof. apply holes_drills. rewrite metric_size. lra. Qed.
