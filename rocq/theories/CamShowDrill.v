(** Images of drill files. *)
From Coq Require Import Lra Lia Qreals.
From Verif Require Import PyBase QcLib GeomModel GeomSpec GeomProofs CairoModel CairoSpec CairoProofs CairoLayer CairoMore CairoScale MacroGeomModel MacroGeomProofs ShowModel ShowSpec ShowFile ShowMacro CamShowModel CamShowSpec CamShowProofs.
From Verif Require Import GerberText.
From Verif Require ExcellonModel ExcellonFile ExcellonSpec ExcellonMore.
Import ListNotations.
Open Scope R_scope.
Open Scope list_scope.

Lemma real_opp a : real (- a)%Qc = - real a.
Proof. unfold real. rewrite <- Q2R_opp. apply Qeq_eqR. cbn [this Qcopp Q2Qc]. apply Qred_correct. Qed.
Lemma real_plus a b : real (a + b)%Qc = real a + real b.
Proof. unfold real. rewrite <- Q2R_plus. apply Qeq_eqR. cbn [this Qcplus Q2Qc]. apply Qred_correct. Qed.
Lemma real_minus a b : real (a - b)%Qc = real a - real b.
Proof. unfold Qcminus. rewrite real_plus, real_opp. reflexivity. Qed.
Lemma real_half a : real (ExcellonFile.half a) = real a / 2.
Proof.
  unfold ExcellonFile.half. assert (E : (a / zq 2 + a / zq 2 = a)%Qc).
  { transitivity (a * (zq 2 * / zq 2))%Qc; [|rewrite Qcmult_inv_r by (vm_compute; discriminate); ring]. replace (zq 2) with (1 + 1)%Qc at 3 by (apply Qc_is_canon; vm_compute; reflexivity). unfold Qcdiv. ring. }
  apply (f_equal real) in E. rewrite real_plus in E. lra.
Qed.
Lemma real_min a b : real (qcmin a b) = Rmin (real a) (real b).
Proof.
  pose proof (real_le _ _ (qcmin_l a b)). pose proof (real_le _ _ (qcmin_r a b)). destruct (qcmin_case a b) as [E|E]; rewrite E in *; [rewrite Rmin_left|rewrite Rmin_right]; lra.
Qed.
Lemma real_max a b : real (qcmax a b) = Rmax (real a) (real b).
Proof.
  pose proof (real_le _ _ (qcmax_l a b)). pose proof (real_le _ _ (qcmax_r a b)). destruct (qcmax_case a b) as [E|E]; rewrite E in *; [rewrite Rmax_left|rewrite Rmax_right]; lra.
Qed.
Lemma real_join a b : real_box (ExcellonFile.join_box a b) = widened (real_box a) (real_box b).
Proof. destruct a as [[a1 a2] [a3 a4]], b as [[b1 b2] [b3 b4]]. unfold real_box, widened, ExcellonFile.join_box. cbn [fst snd]. rewrite !real_min, !real_max. reflexivity. Qed.

(** One hit: its box, and what is drawn for it *)
Definition single_of (s : list ExcellonModel.tool) (h : ExcellonModel.hit) (d : drawn) : Prop :=
  dark d = true /\ solid (what d) /\ simple (what d) /\ bounds (bbox d) (cut s h) /\ forall q fill, prim_shape fill (what d) q <-> cut s h q.
Lemma hit_drawn s h t d : ExcellonSpec.tool_of s h = Some t -> ExcellonModel.t_diam t = Some d -> 0 < real d ->
  match h with ExcellonModel.Hit _ _ => True | ExcellonModel.Slot _ a b _ => ExcellonSpec.complete a /\ ExcellonSpec.complete b end ->
  exists x b, drill_item s h = Ok (Single x) /\ ExcellonFile.hit_box s h = Ok b /\ bbox x = real_box b /\ single_of s h x.
Proof.
  intros Ht Hd Pd C. assert (TA : ExcellonFile.tool_at s (ExcellonFile.hit_tool h) = Ok t).
  { destruct (ExcellonMore.tool_at_of s h) as (t' & A & B); [congruence|]. rewrite Ht in A. injection A as <-. exact B. }
  unfold drill_item, ExcellonFile.hit_box. rewrite TA. cbn [bind]. rewrite Hd. destruct h as [o p|o [[a|] [b|]] [[x|] [y|]] r]; try (exfalso; unfold ExcellonSpec.complete in C; cbn [fst snd] in C; tauto).
  - assert (Q : forall q, cut s (ExcellonModel.Hit o p) q <-> disc (real_pt p) (real d / 2) q).
    { intro q. split; [intros (t' & d' & A & B & W); rewrite Ht in A; injection A as <-; rewrite Hd in B; injection B as <-; exact W|]. intro W. exists t, d. auto. }
    do 2 eexists. split; [reflexivity|]. split; [reflexivity|]. split; [|split; [reflexivity|split; [cbn; lra|split; [exact Pd|split]]]].
    + cbn [bbox]. unfold circle_box, BoxModel.circle_box, BoxModel.around, real_box, real_pt. cbn [fst snd]. rewrite !real_minus, !real_plus, !real_half. unfold half. reflexivity.
    + cbn [bbox]. eapply bounds_ext; [intro q; symmetry; apply Q|]. apply circle_bounds. lra.
    + intros q fill. cbn [what prim_shape]. rewrite no_holes_iff. symmetry. apply Q.
  - assert (Q : forall q, cut s (ExcellonModel.Slot o (Some a, Some b) (Some x, Some y) r) q <-> stroke (segment (real_pt (a, b)) (real_pt (x, y))) (disc (0, 0) (real d / 2)) q).
    { intro q. split; [intros (t' & d' & A & B & W); rewrite Ht in A; injection A as <-; rewrite Hd in B; injection B as <-; exact W|]. intro W. exists t, d. auto. }
    do 2 eexists. split; [reflexivity|]. split; [reflexivity|]. split; [|split; [reflexivity|split; [exact I|split; [exact Pd|split]]]].
    + cbn [bbox]. unfold slot_box, BoxModel.slot_box, real_box, real_pt. cbn [fst snd]. rewrite !real_minus, !real_plus, !real_half, !real_min, !real_max. unfold half. reflexivity.
    + cbn [bbox]. eapply bounds_ext; [intro q; symmetry; apply Q|]. apply slot_bounds. lra.
    + intros q fill. cbn [what prim_shape]. symmetry. apply Q.
Qed.
Lemma hits_drawn s : forall hs acc, (forall h, In h hs -> exists t d, ExcellonSpec.tool_of s h = Some t /\ ExcellonModel.t_diam t = Some d /\ 0 < real d /\
    match h with ExcellonModel.Hit _ _ => True | ExcellonModel.Slot _ a b _ => ExcellonSpec.complete a /\ ExcellonSpec.complete b end) ->
  exists ds b, mapM (drill_item s) hs = Ok (map Single ds) /\ ExcellonFile.boxes s hs acc = Ok b /\ real_box b = fold_left widened (map bbox ds) (real_box acc) /\ Forall2 (fun d h => single_of s h d) ds hs.
Proof.
  induction hs as [|h hs IH]; intros acc H; [exists [], acc; repeat split; constructor|]. destruct (H h (or_introl eq_refl)) as (t & d & Ht & Hd & Pd & C).
  destruct (hit_drawn s h t d Ht Hd Pd C) as (x & b & D & B & Bx & X). destruct (IH (ExcellonFile.join_box acc b)) as (ds & b' & Ds & Bs & Rb & Xs); [intros; apply H; now right|].
  exists (x :: ds), b'. cbn [mapM map ExcellonFile.boxes fold_left]. rewrite D, B. cbn [bind]. rewrite Ds, Bs. cbn [bind]. split; [reflexivity|]. split; [reflexivity|]. split; [|now constructor].
  rewrite Rb, real_join, Bx. reflexivity.
Qed.
Lemma drills_hits f : drills f -> forall h, In h (ExcellonModel.xf_hits f) -> exists t d, ExcellonSpec.tool_of (ExcellonModel.xf_store f) h = Some t /\ ExcellonModel.t_diam t = Some d /\ 0 < real d /\
    match h with ExcellonModel.Hit _ _ => True | ExcellonModel.Slot _ a b _ => ExcellonSpec.complete a /\ ExcellonSpec.complete b end.
Proof.
  intros [C D] h J. destruct (C h J) as [T1 T2]. destruct (ExcellonSpec.tool_of _ h) as [t|] eqn:E; [|contradiction]. destruct (D h t J E) as (d & Ed & Pd). eauto 8.
Qed.
(** ** The image *)
Lemma flat_single (ds : list drawn) : flat_map parts (map Single ds) = ds.
Proof. induction ds; cbn; congruence. Qed.
Lemma drills_dark fill s hs ds p : Forall2 (fun d h => single_of s h d) ds hs -> layer_shows fill (map Single ds) p <-> exists h, In h hs /\ cut s h p.
Proof.
  intro F. unfold layer_shows. rewrite darkened_all.
  - split.
    + intros (i & J & Q). apply in_map_iff in J as (d & <- & J). destruct (forall2_left _ _ _ d F J) as (h & Jh & (_ & _ & _ & _ & X)). exists h. split; [exact Jh|]. apply (X p fill). exact Q.
    + intros (h & J & Q). destruct (forall2_right _ _ _ h F J) as (d & Jd & (_ & _ & _ & _ & X)). exists (Single d). split; [now apply in_map|]. now apply X.
  - intros i J. apply in_map_iff in J as (d & <- & J). destruct (forall2_left _ _ _ d F J) as (h & Jh & X). exact (proj1 X).
Qed.
Lemma below_drills fill f s ds p : 0 < s -> Forall2 (fun d h => single_of (ExcellonModel.xf_store f) h d) ds (ExcellonModel.xf_hits f) -> below_cuts f s p -> below_top fill s (map Single ds) p.
Proof.
  intros S F B d J C. rewrite flat_single in J. destruct (forall2_left _ _ _ d F J) as (h & Jh & (_ & _ & _ & [E _] & X)). destruct (B h Jh) as (q & Q & L); [now apply (X p fill)|].
  pose proof (E q Q) as [_ [_ Y]]. nra.
Qed.
Lemma single_renderable fill s h d : single_of s h d -> renderable fill d /\ invertible fill d.
Proof.
  intros (Dk & So & Si & [E _] & X). assert (E' : encloses (bbox d) (prim_shape fill (what d))) by (intros q Q; apply E; now apply (X q fill)).
  split; [split; [exact E'|]; split; [exact Si|now left]|]. split; [exact E'|]. split; [exact Si|]. split; [exact Dk|exact So].
Qed.
Lemma singles_renderable fill s hs ds : Forall2 (fun d h => single_of s h d) ds hs -> Forall (renderable_item fill) (map Single ds) /\ Forall (invertible_item fill) (map Single ds).
Proof.
  induction 1 as [|d h ds hs X F [IH1 IH2]]; cbn [map]; split; constructor; auto; now apply (single_renderable fill s h d).
Qed.
Lemma drill_layer_shown fill f s b mir : filling fill -> drills f -> 0 < s -> fst (fst b) <= snd (fst b) -> fst (snd b) <= snd (snd b) ->
  exists img, render_drill_layer fill s b false mir f = Ok img /\ forall p, inside b p -> below_cuts f s p -> (img (pixel s b mir p) <-> cuts f p).
Proof.
  intros Fi D S X Y. destruct (hits_drawn (ExcellonModel.xf_store f) (ExcellonModel.xf_hits f) ((0, 0), (0, 0))%Qc (drills_hits f D)) as (ds & _ & M & _ & _ & F).
  unfold render_drill_layer. rewrite M. cbn [bind]. destruct (layer_ok fill b s mir (map Single ds) Fi S X Y) as (img & R & H); [now apply (singles_renderable fill _ _ _ F)|].
  exists img. split; [exact R|]. intros p I0 B. rewrite (H p I0 (below_drills fill f s ds p S F B)). now apply drills_dark.
Qed.
Lemma drill_layer_inverted fill f s b mir : filling fill -> drills f -> 0 < s -> fst (fst b) <= snd (fst b) -> fst (snd b) <= snd (snd b) ->
  exists img, render_drill_layer fill s b true mir f = Ok img /\ forall p, inside b p -> below_cuts f s p -> (img (pixel s b mir p) <-> ~ cuts f p).
Proof.
  intros Fi D S X Y. destruct (hits_drawn (ExcellonModel.xf_store f) (ExcellonModel.xf_hits f) ((0, 0), (0, 0))%Qc (drills_hits f D)) as (ds & _ & M & _ & _ & F).
  unfold render_drill_layer. rewrite M. cbn [bind]. destruct (inverted_ok fill b s mir (map Single ds) Fi S X Y) as (img & R & H); [now apply (singles_renderable fill _ _ _ F)|].
  exists img. split; [exact R|]. intros p I0 B. rewrite (H p I0 (below_drills fill f s ds p S F B)). now rewrite (drills_dark fill _ _ _ p F).
Qed.
Lemma drills_shown fill f s b : filling fill -> drills f -> 0 < s -> bounds b (cuts f) -> within 100000000000 b ->
  exists img, render_drills fill s false f = Ok img /\ forall p, below_cuts f s p -> (img (pixel s b false p) <-> cuts f p).
Proof.
  intros Fi D S B W. destruct (hits_drawn (ExcellonModel.xf_store f) (ExcellonModel.xf_hits f) ((ExcellonFile.sentinel, - ExcellonFile.sentinel), (ExcellonFile.sentinel, - ExcellonFile.sentinel))%Qc (drills_hits f D)) as (ds & b' & M & Bx & Rb & F).
  assert (E : real_box b' = b).
  { rewrite Rb. unfold real_box. cbn [fst snd]. rewrite real_opp. unfold ExcellonFile.sentinel. replace (real (zq 100000000000)) with 100000000000.
    - apply (whole_gen (cut (ExcellonModel.xf_store f)) (map bbox ds) (ExcellonModel.xf_hits f)); [|exact B|exact W]. clear - F. induction F as [|d h ds hs X F IH]; cbn [map]; constructor; [apply X|exact IH].
    - unfold real, zq. transitivity (Q2R (inject_Z 100000000000)); [unfold Q2R, inject_Z; cbn [Qnum Qden]; field|]. apply Qeq_eqR. cbn [this Q2Qc]. symmetry. apply Qred_correct. }
  destruct (box_order b _ B) as [X Y]. destruct (drill_layer_shown fill f s b false Fi D S X Y) as (img & R & H).
  assert (R' : render_drills fill s false f = Ok img). { unfold render_drills, ExcellonFile.bounding_box. rewrite Bx. cbn [bind]. rewrite E. exact R. }
  exists img. split; [exact R'|]. intros p T0. split.
  - intro I0. apply H; [|exact T0|exact I0]. unfold render_drill_layer in R. rewrite M in R. cbn [bind] in R. exact (in_bounds fill b s false false (map Single ds) img p S X Y R I0).
  - intro C. apply H; [|exact T0|exact C]. now apply (proj1 B).
Qed.
