(** Magnified marks drawn at the corresponding scale: the same image, pixel for pixel. *)
From Coq Require Import Lra Lia.
From Verif Require Import PyBase QcLib GeomModel GeomSpec GeomProofs HullSpec CairoModel CairoSpec CairoProofs CairoLayer CairoScale MacroModel AmModel AmSpec MacroGeomModel MacroGeomSpec MacroGeomProofs ShowModel ShowSpec ShowProofs ShowFile ShowMacro CamShowModel CamShowSpec CamShowProofs SimilarSpec SimilarProofs SimilarFile.
From Verif Require Import GerberText HeapModel HeapSpec.
From Verif Require GerberEval GerberEvalSpec GerberEvalProofs GerberConv GerberConvSpec ScaleSpec ScaleProofs PropScale.
Import ListNotations GerberEvalSpec.
Open Scope R_scope.
Open Scope list_scope.

Lemma bounds_same b b' s : bounds b s -> bounds b' s -> b = b'.
Proof.
  intros [E ((p1 & P1 & X1) & (p2 & P2 & X2) & (p3 & P3 & X3) & (p4 & P4 & X4))] [E' ((q1 & Q1 & Y1) & (q2 & Q2 & Y2) & (q3 & Q3 & Y3) & (q4 & Q4 & Y4))].
  pose proof (E _ Q1); pose proof (E _ Q2); pose proof (E _ Q3); pose proof (E _ Q4). pose proof (E' _ P1); pose proof (E' _ P2); pose proof (E' _ P3); pose proof (E' _ P4).
  unfold inside in *. destruct b as [[x0 x1] [y0 y1]], b' as [[x0' x1'] [y0' y1']]. cbn [fst snd] in *. f_equal; f_equal; lra.
Qed.
Section Exact.
Variable k : R.
Hypothesis K : 0 < k.
Notation O0 := (0, 0).
(** What two contexts have in common *)
Definition grown (c c' : context) : Prop :=
  scale c = k * scale c' /\ CairoModel.origin c' = similar k O0 (CairoModel.origin c) /\ size c' = similar k O0 (size c) /\ invert c' = invert c /\ mirror c' = mirror c.
Lemma grown_origin c c' : grown c c' -> origin_px c' = origin_px c.
Proof. intros (S & O & _). unfold origin_px, scale_point, similar in *. rewrite S, O. cbn [fst snd]. f_equal; ring. Qed.
Lemma grown_size c c' : grown c c' -> size_px c' = size_px c.
Proof. intros (S & _ & Z & _). unfold size_px, scale_point, similar in *. rewrite S, Z. cbn [fst snd]. f_equal; ring. Qed.
Lemma grown_clip c c' b u : grown c c' -> clip c' (similar_box k O0 b) u <-> clip c b u.
Proof.
  intro G. unfold clip. rewrite (grown_origin _ _ G). destruct G as (S & _). unfold similar_box. cbn [fst snd]. rewrite S.
  replace (scale c' * (k * fst (fst b) + 0)) with (k * scale c' * fst (fst b)) by ring. replace (scale c' * (k * snd (fst b) + 0)) with (k * scale c' * snd (fst b)) by ring.
  replace (scale c' * (k * fst (snd b) + 0)) with (k * scale c' * fst (snd b)) by ring. replace (scale c' * (k * snd (snd b) + 0)) with (k * scale c' * snd (snd b)) by ring. reflexivity.
Qed.
Lemma grown_matrix c c' u : grown c c' -> matrix c' u = matrix c u.
Proof. intro G. unfold matrix. rewrite (grown_origin _ _ G), (grown_size _ _ G). destruct G as (_ & _ & _ & _ & ->). reflexivity. Qed.
Lemma grown_surface c c' u : grown c c' -> on_surface c' u <-> on_surface c u.
Proof. intro G. unfold on_surface. now rewrite (grown_size _ _ G). Qed.
Lemma grown_masked c c' b (s s' : shape) q : grown c c' -> (forall v, s' v <-> s v) -> masked c' (similar_box k O0 b) s' q <-> masked c b s q.
Proof.
  intros G E. unfold masked. rewrite (grown_surface c c' q G). rewrite (grown_origin _ _ G). split; intros (Q & v & V & M & Cl & X); (split; [exact Q|]); exists v; cbn zeta in *.
  - apply E in V. rewrite (grown_surface c c' _ G) in M. rewrite (grown_clip c c' _ _ G) in Cl. rewrite (grown_matrix c c' _ G) in X. auto.
  - apply E in V. rewrite (grown_surface c c' _ G). rewrite (grown_clip c c' _ _ G). rewrite (grown_matrix c c' _ G). auto.
Qed.
(** Two primitives *)
Section Filled.
Variable fill : list curve -> shape.
Hypothesis Fi : filling fill.
Definition grown_prim (d d' : drawn) : Prop :=
  dark d' = dark d /\ bbox d' = similar_box k O0 (bbox d) /\ alike_shape k O0 (prim_shape fill (what d)) (prim_shape fill (what d')).
Definition able (inv : bool) (d : drawn) : Prop := simple (what d) /\ clear_holes inv (dark d) (what d).
Lemma grown_render c c' d d' (layer layer' : shape) : 0 < scale c' -> grown c c' -> grown_prim d d' -> able (invert c) d -> able (invert c) d' -> (forall q, layer' q <-> layer q) ->
  exists img img', render fill c d layer = Ok img /\ render fill c' d' layer' = Ok img' /\ forall q, img' q <-> img q.
Proof.
  intros S' G (Dk & Bb & Sh) [Si Ho] [Si' Ho'] L. assert (S : 0 < scale c) by (destruct G as (-> & _); now apply Rmult_lt_0_compat). unfold render.
  destruct (mask_ok fill c (dark d) (what d) Fi S Si Ho) as (m & -> & E). pose proof G as (Sc & _ & _ & Iv & _). rewrite <- Iv in Ho'. destruct (mask_ok fill c' (dark d') (what d') Fi S' Si' Ho') as (m' & -> & E').
  cbn [bind]. do 2 eexists. split; [reflexivity|]. split; [reflexivity|]. intro q.
  assert (M : masked c' (bbox d') (drawing m') q <-> masked c (bbox d) (drawing m) q).
  { rewrite Bb. apply grown_masked; [exact G|]. intro v. set (p := (fst v / scale c, snd v / scale c)).
    assert (V : v = magnify (scale c) p) by (destruct v; unfold p, magnify; cbn [fst snd]; f_equal; field; lra).
    assert (V' : v = magnify (scale c') (similar k O0 p)) by (rewrite V, Sc; unfold magnify, similar; cbn [fst snd]; f_equal; ring).
    rewrite V' at 1. rewrite V at 1. rewrite E, E'. apply Sh. }
  unfold draw, layer_operator. rewrite Iv, Dk. destruct (negb (invert c) && dark d); rewrite M, L; reflexivity.
Qed.
Lemma grown_all c c' : 0 < scale c' -> grown c c' -> forall l l', Forall2 grown_prim l l' -> Forall (able (invert c)) l -> Forall (able (invert c)) l' -> forall layer layer' : shape, (forall q, layer' q <-> layer q) ->
  exists img img', render_all fill c l layer = Ok img /\ render_all fill c' l' layer' = Ok img' /\ forall q, img' q <-> img q.
Proof.
  intros S' G l l' F. induction F as [|d d' l l' D F IH]; intros A A' layer layer' L; [exists layer, layer'; auto|]. inversion A; subst. inversion A'; subst.
  destruct (grown_render c c' d d' layer layer' S' G D) as (i & i' & R & R' & E); [assumption|assumption|assumption|]. cbn [render_all]. rewrite R, R'. cbn [bind]. now apply IH.
Qed.
End Filled.
End Exact.

Lemma bounds_iff b (s s' : shape) : (forall p, s p <-> s' p) -> bounds b s -> bounds b s'.
Proof.
  intros E [En ((p1 & P1 & X1) & (p2 & P2 & X2) & (p3 & P3 & X3) & (p4 & P4 & X4))]. split; [intros p P; now apply En, E|].
  split; [exists p1|split; [exists p2|split; [exists p3|exists p4]]]; (split; [now apply E|assumption]).
Qed.
Lemma alone_box m b : bounds b (extent m) <-> file_box [m] b.
Proof.
  assert (E : forall p, extent m p <-> exists m0, In m0 [m] /\ extent m0 p).
  { intro p. split; [intro X; exists m; split; [now left|exact X]|intros (m0 & [<-|[]] & X); exact X]. }
  split; apply bounds_iff; [exact E|intro p; symmetry; apply E].
Qed.
Lemma not_macro m : plain_mark m -> ~ macro_stamp m.
Proof. destruct m as [v|l pol u|o]; cbn [macro_stamp plain_mark]; try tauto. unfold plain_obj. destruct (GerberEval.o_shape o) eqn:E; try tauto. intros P _. now apply (P prims). Qed.
Lemma views_grown fill k h h' (Se : sensible fill) : 0 < k -> forall l l' ms ms', map (deref h) l = map Some ms -> map (deref h') l' = map Some ms' -> Forall2 (like_mark k (0, 0)) ms ms' ->
  Forall fair ms -> Forall fair ms' -> Forall plain_mark ms -> Forall plain_mark ms' ->
  exists ds ds', mapM (view h) l = Ok (map Single ds) /\ mapM (view h') l' = Ok (map Single ds') /\ Forall2 (grown_prim k fill) ds ds' /\ Forall (able false) ds /\ Forall (able false) ds'.
Proof.
  intros K. induction l as [|p l IH]; intros l' ms ms' D D' L F F' P P'.
  - destruct ms; [|discriminate]. inversion L; subst. destruct l'; [|discriminate]. exists [], []. repeat split; constructor.
  - destruct ms as [|m ms]; [discriminate|]. inversion L as [|? m' ? ms0 Lm L0]; subst. destruct l' as [|p' l']; [discriminate|]. cbn [map] in D, D'. injection D as D1 D2. injection D' as D1' D2'.
    inversion F as [|? ? F1 F2]; subst. inversion F' as [|? ? F1' F2']; subst. inversion P as [|? ? P1 P2]; subst. inversion P' as [|? ? P1' P2']; subst.
    destruct (IH l' ms ms0 D2 D2' L0 F2 F2' P2 P2') as (ds & ds' & V & V' & G & A & A').
    destruct (view_single fill Se h p m (not_macro m P1) D1 F1) as (d & W & (Dk & Re & Sh)). destruct (view_single fill Se h' p' m' (not_macro m' P1') D1' F1') as (d' & W' & (Dk' & Re' & Sh')).
    destruct (single_box fill h p m Se (not_macro m P1) D1 F1) as (x & X & B). rewrite W in X. injection X as <-. destruct (single_box fill h' p' m' Se (not_macro m' P1') D1' F1') as (x & X & B'). rewrite W' in X. injection X as <-.
    exists (d :: ds), (d' :: ds'). cbn [mapM map]. rewrite W, W', V, V'. cbn [bind]. split; [reflexivity|]. split; [reflexivity|].
    split; [constructor; [|exact G]|split; (constructor; [|assumption])].
    + split; [rewrite Dk, Dk'; now apply (dark_sim k (0, 0))|]. split.
      * apply (bounds_same _ _ (extent m') B'). apply alone_box, (file_box_sim k (0, 0) K [m] [m'] (bbox d)); [constructor; [exact Lm|constructor]|]. now apply alone_box.
      * intro q. rewrite Sh, Sh'. apply (covers_sim k (0, 0) K fill (s_filling _ Se) (along_magnified fill k (s_filling _ Se) K) m m' Lm q).
    + apply renderable_fine in Re. destruct Re as (_ & X & Y). now split.
    + apply renderable_fine in Re'. destruct Re' as (_ & X & Y). now split.
Qed.
Lemma parts_single ds : flat_map CairoModel.parts (map Single ds) = ds.
Proof. induction ds as [|d ds IH]; [reflexivity|]. cbn. now rewrite IH. Qed.
Lemma exact_files fill fc k s l f l' f' ms ms' b : sensible fill -> 0 < k -> 0 < s ->
  GerberConv.open_file fc l = Ok f -> GerberConv.open_file fc l' = Ok f' -> image fc [] l = Some ms -> image fc [] l' = Some ms' -> Forall2 (like_mark k (0, 0)) ms ms' ->
  Forall fair ms -> Forall plain_mark ms -> Forall plain_mark ms' -> Forall (fun m => exists q, extent m q) ms -> file_box ms b -> within 1000000 b -> within 1000000 (similar_box k (0, 0) b) ->
  exists img img', render_whole fill fc (k * s) false l = Ok img /\ render_whole fill fc s false l' = Ok img' /\ (forall q, img' q <-> img q) /\
    exists size, whole_size fc (k * s) l = Ok size /\ whole_size fc s l' = Ok size.
Proof.
  intros Se K S O O' Im Im' L F P P' N B W W'. assert (KS : 0 < k * s) by now apply Rmult_lt_0_compat.
  destruct (opened fc l f O) as (st & l1 & E). destruct (opened fc l' f' O') as (st' & l1' & E').
  pose proof (fairs_sim k (0, 0) K ms ms' L F) as F'. pose proof (extents_sim k (0, 0) K ms ms' L N) as N'. pose proof (file_box_sim k (0, 0) K ms ms' b L B) as B'.
  rewrite (whole_unfold fill fc (k * s) false l st l1 ms b Se E Im F N B W), (whole_unfold fill fc s false l' st' l1' ms' _ Se E' Im' F' N' B' W').
  destruct (proj2 (GerberEvalProofs.evaluate_image fc l [] GerberEval.g_init st l1 (GerberEvalProofs.inv_init fc) E)) as (m0 & I0 & Sh). rewrite Im in I0. injection I0 as <-.
  destruct (proj2 (GerberEvalProofs.evaluate_image fc l' [] GerberEval.g_init st' l1' (GerberEvalProofs.inv_init fc) E')) as (m0 & I0 & Sh'). rewrite Im' in I0. injection I0 as <-.
  destruct (views_grown fill k _ _ Se K _ _ ms ms' Sh Sh' L F F' P P') as (ds & ds' & V & V' & G & A & A').
  unfold render_file. rewrite V, V'. cbn [bind]. unfold render_layer. rewrite !parts_single.
  assert (Gr : grown k (set_bounds (k * s) b false false) (set_bounds s (similar_box k (0, 0) b) false false)).
  { destruct (box_order b _ B) as [X Y]. unfold grown, set_bounds, similar_box, similar. cbn [scale CairoModel.origin size invert mirror fst snd]. split; [reflexivity|]. split; [reflexivity|]. split; [|auto].
    rewrite !Rabs_right by (try (assert (0 <= k * (snd (fst b) - fst (fst b))) by (apply Rmult_le_pos; lra)); try (assert (0 <= k * (snd (snd b) - fst (snd b))) by (apply Rmult_le_pos; lra)); lra). f_equal; ring. }
  destruct (grown_all k K fill (s_filling _ Se) (set_bounds (k * s) b false false) (set_bounds s (similar_box k (0, 0) b) false false) S Gr ds ds' G A A' (fun q => invert (set_bounds (k * s) b false false) = true /\ on_surface (set_bounds (k * s) b false false) q)
    (fun q => invert (set_bounds s (similar_box k (0, 0) b) false false) = true /\ on_surface (set_bounds s (similar_box k (0, 0) b) false false) q)) as (img & img' & R & R' & H).
  { intro q. cbn [set_bounds invert]. split; intros [X _]; discriminate X. }
  exists img, img'. split; [exact R|]. split; [exact R'|]. split; [exact H|].
  eexists. split; [exact (size_opened fill fc (k * s) l st l1 ms b Se KS E Im F N B W)|]. rewrite (size_opened fill fc s l' st' l1' ms' _ Se S E' Im' F' N' B' W').
  unfold similar_box. cbn [fst snd]. f_equal. f_equal; ring.
Qed.
Lemma enlarge_plain q u m : plain_mark m -> plain_mark (ScaleSpec.enlarge q u m).
Proof.
  assert (Ob : forall o, plain_obj o -> plain_obj (ScaleSpec.enlarge_obj q u o)).
  { unfold plain_obj. intros o P ps. cbn [ScaleSpec.enlarge_obj GerberEval.o_shape]. destruct (GerberEval.o_shape o) eqn:E; cbn [ScaleSpec.enlarge_shape]; try discriminate. exfalso. now apply (P prims). }
  assert (Sg : forall v, plain_seg v -> plain_seg (ScaleSpec.enlarge_seg q u v)) by (intros [a b [o|] pol w|a b c dir [o|] qu pol w]; cbn; auto).
  destruct m as [v|l pol w|o]; cbn [plain_mark ScaleSpec.enlarge]; auto. intro P. apply Forall_map. revert P. apply Forall_impl. exact Sg.
Qed.
Lemma converted_exact fill fc w s l f f' ms b : sensible fill -> 0 < s -> ScaleSpec.proportional fc -> ScaleSpec.declared w l -> Forall ScaleSpec.plain_apertures l ->
  GerberConv.open_file fc l = Ok f -> image fc [] l = Some ms -> GerberConv.file_to (other w) f = Ok f' -> Forall fair ms -> Forall (fun m => exists q, extent m q) ms ->
  file_box ms b -> within 1000000 b -> within 1000000 (similar_box (real (factor (other w))) (0, 0) b) ->
  exists img img', render_whole fill fc (real (factor (other w)) * s) false l = Ok img /\ render_whole fill fc s false (map fst (GerberConv.f_stmts f')) = Ok img' /\
    (forall q, img' q <-> img q) /\ exists size, whole_size fc (real (factor (other w)) * s) l = Ok size /\ whole_size fc s (map fst (GerberConv.f_stmts f')) = Ok size.
Proof.
  intros Se S Pr De Pl O Im To F N B W W'. destruct (PropScale.C126_image_partial fc w (other w) l f f' ms ltac:(destruct w; discriminate) Pr De Pl O Im To) as (Im' & f2 & O2 & _).
  assert (K : 0 < real (factor (other w))) by (apply real_pos, ScaleProofs.factor_positive). pose proof (image_plain fc l [] ms (Forall_nil _) Pl Im) as P.
  assert (L : Forall2 (like_mark (real (factor (other w))) (0, 0)) ms (map (ScaleSpec.enlarge (factor (other w)) (other w)) ms)).
  { apply marks_like. revert P. apply Forall_impl. intros m P. now apply mark_larger. }
  apply (exact_files fill fc _ s l f _ f2 ms _ b Se K S O O2 Im Im' L F P); [|exact N|exact B|exact W|exact W'].
  apply Forall_map. revert P. apply Forall_impl. intros m. apply enlarge_plain.
Qed.
