(** Images of moved, converted and rewritten drill files. *)
From Coq Require Import Lra Lia Qreals.
From Verif Require Import PyBase QcLib GeomModel GeomSpec GeomProofs CairoModel CairoSpec CairoProofs CairoLayer CairoMore CairoScale MacroGeomModel MacroGeomProofs ShowModel ShowSpec ShowFile ShowMacro CamShowModel CamShowSpec CamShowProofs CamShowDrill ShowExamples SimilarSpec SimilarProofs SimilarFile SimilarExact DrillShowModel DrillShowSpec.
From Verif Require Import GerberText.
From Verif Require ExcellonModel ExcellonFile ExcellonSpec ExcellonMore.
Import ListNotations.
Open Scope R_scope.
Open Scope list_scope.

(** ** The image, pixel for pixel *)
(** All marks are dark: a pixel is dark when one of them has it. *)
Lemma singles_image fill c ds : filling fill -> 0 < scale c -> invert c = false -> Forall (fun d => dark d = true /\ simple (what d) /\ clear_holes false (dark d) (what d)) ds -> forall layer : shape,
  exists img, render_all fill c ds layer = Ok img /\ forall q, img q <-> layer q \/ exists d, In d ds /\ masked c (bbox d) (fun v => prim_shape fill (what d) (fst v / scale c, snd v / scale c)) q.
Proof.
  intros Fi S I0. induction ds as [|d ds IH]; intros F layer; [exists layer; split; [reflexivity|]; intro q; split; [auto|intros [X|(d & [] & _)]; exact X]|].
  inversion F as [|? ? (Dk & Si & Ho) F']; subst. cbn [render_all]. unfold render. destruct (mask_ok fill c (dark d) (what d) Fi S Si) as (m & -> & E); [rewrite I0; exact Ho|]. cbn [bind].
  match goal with |- context [render_all fill c ds ?lay] => destruct (IH F' lay) as (img & R & H) end. exists img. split; [exact R|]. intro q. rewrite H. clear H.
  unfold layer_operator. rewrite I0, Dk. cbn [negb andb draw].
  assert (M : masked c (bbox d) (drawing m) q <-> masked c (bbox d) (fun v => prim_shape fill (what d) (fst v / scale c, snd v / scale c)) q).
  { assert (V : forall v, drawing m v <-> prim_shape fill (what d) (fst v / scale c, snd v / scale c)).
    { intro v. rewrite <- E. replace (magnify (scale c) (fst v / scale c, snd v / scale c)) with v; [reflexivity|]. destruct v. unfold magnify. cbn [fst snd]. f_equal; field; lra. }
    unfold masked. split; intros (Q & v & X & Y); (split; [exact Q|]); exists v; (split; [now apply V|exact Y]). }
  unfold draw. rewrite M. split.
  - intros [[X|X]|(d' & J & X)]; [now left|right; exists d; split; [now left|exact X]|right; exists d'; split; [now right|exact X]].
  - intros [X|(d' & [<-|J] & X)]; [left; now left|left; now right|right; eauto].
Qed.
Definition drilled_pixel (fill : list curve -> shape) (s : R) (b : rbox) (f : ExcellonModel.xfile) (q : pt) : Prop :=
  exists h x, In h (ExcellonModel.xf_hits f) /\ drill_item (ExcellonModel.xf_store f) h = Ok (Single x) /\
    masked (set_bounds s b false false) (bbox x) (fun v => prim_shape fill (what x) (fst v / s, snd v / s)) q.
Lemma drills_exact fill f s b : filling fill -> drills f -> 0 < s -> bounds b (cuts f) -> within 100000000000 b ->
  exists img, render_drills fill s false f = Ok img /\ (exists b', ExcellonFile.bounding_box f = Ok b' /\ real_box b' = b) /\ forall q, img q <-> drilled_pixel fill s b f q.
Proof.
  intros Fi D S B W. destruct (hits_drawn (ExcellonModel.xf_store f) (ExcellonModel.xf_hits f) ((ExcellonFile.sentinel, - ExcellonFile.sentinel), (ExcellonFile.sentinel, - ExcellonFile.sentinel))%Qc (drills_hits f D)) as (ds & b' & M & Bx & Rb & F).
  assert (E : real_box b' = b).
  { rewrite Rb. unfold real_box. cbn [fst snd]. rewrite real_opp. unfold ExcellonFile.sentinel. replace (real (zq 100000000000)) with 100000000000.
    - apply (whole_gen (cut (ExcellonModel.xf_store f)) (map bbox ds) (ExcellonModel.xf_hits f)); [|exact B|exact W]. clear - F. induction F as [|d h ds hs X F IH]; cbn [map]; constructor; [apply X|exact IH].
    - now rewrite real_zq. }
  unfold render_drills, ExcellonFile.bounding_box. rewrite Bx, M. cbn [bind]. rewrite E. unfold render_layer. rewrite flat_single.
  destruct (singles_image fill (set_bounds s b false false) ds Fi S eq_refl) with (layer := fun q : pt => invert (set_bounds s b false false) = true /\ on_surface (set_bounds s b false false) q) as (img & R & H).
  { clear - F. induction F as [|d h ds hs (Dk & So & Si & _) F IH]; constructor; [|exact IH]. split; [exact Dk|]. split; [exact Si|]. rewrite Dk. destruct (what d); cbn in *; auto. }
  exists img. split; [exact R|]. split; [eauto|]. intro q. rewrite H. clear H. unfold drilled_pixel. split.
  - intros [[X _]|(d & J & X)]; [discriminate X|]. clear - M J X. revert ds M J. induction (ExcellonModel.xf_hits f) as [|h hs IH]; intros ds M J; cbn [mapM] in M.
    + destruct ds; [destruct J|discriminate].
    + destruct (drill_item _ h) as [i|] eqn:Ei; [|discriminate]. cbn [bind] in M. destruct (mapM _ hs) as [l|] eqn:El; [|discriminate]. cbn [bind] in M. destruct ds as [|d' ds]; [discriminate|]. cbn [map] in M. injection M as -> ->.
      destruct J as [->|J]; [exists h, d; split; [now left|]; split; [exact Ei|exact X]|]. destruct (IH ds eq_refl J) as (h' & x & J' & Y). exists h', x. split; [now right|exact Y].
  - intros (h & x & J & Ex & X). right. clear - M J X Ex. revert ds M. induction (ExcellonModel.xf_hits f) as [|h' hs IH]; intros ds M; [destruct J|]. cbn [mapM] in M.
    destruct (drill_item _ h') as [i|] eqn:Ei; [|discriminate]. cbn [bind] in M. destruct (mapM _ hs) as [l|] eqn:El; [|discriminate]. cbn [bind] in M. destruct ds as [|d' ds]; [discriminate|]. cbn [map] in M. injection M as -> ->.
    destruct J as [->|J].
    + rewrite Ex in Ei. injection Ei as <-. exists x. split; [now left|exact X].
    + destruct (IH J ds eq_refl) as (d & Jd & Y). exists d. split; [now right|exact Y].
Qed.
Lemma drills_size_is f s b : drills f -> bounds b (cuts f) -> within 100000000000 b ->
  drills_size s f = Ok (s * (snd (fst b) - fst (fst b)), s * (snd (snd b) - fst (snd b))).
Proof.
  intros D B W. destruct (drills_exact between f 1 b between_filling D ltac:(lra) B W) as (img & _ & (b' & Eb & <-) & _). unfold drills_size. rewrite Eb. cbn [bind].
  destruct (box_order _ _ B) as [X Y]. unfold size_px, scale_point. cbn [set_bounds size scale fst snd]. rewrite !Rabs_right by lra. f_equal. f_equal; ring.
Qed.

(** ** Moved files *)
Lemma offset_hits dx dy f f' : ExcellonSpec.complete_hits f -> ExcellonFile.offset dx dy f = Ok f' ->
  ExcellonModel.xf_hits f' = map (ExcellonSpec.moved_hit dx dy) (ExcellonModel.xf_hits f) /\ ExcellonModel.xf_store f' = ExcellonModel.xf_store f.
Proof.
  intros C O. destruct (ExcellonMore.C43_lemma dx dy f C) as (f0 & E & H & _ & _ & S & _). rewrite E in O. apply ok_inj in O. subst f0. auto.
Qed.
Lemma tool_moved dx dy s h : ExcellonSpec.tool_of s (ExcellonSpec.moved_hit dx dy h) = ExcellonSpec.tool_of s h.
Proof. destruct h as [[l|] p|[l|] a b r]; reflexivity. Qed.
Lemma real_moved dx dy p : real_pt (ExcellonSpec.move dx dy p) = similar 1 (real_pt (dx, dy)) (real_pt p).
Proof. unfold ExcellonSpec.move, real_pt, similar. cbn [fst snd]. rewrite !real_plus. f_equal; ring. Qed.
Lemma cut_moved dx dy s h : alike_shape 1 (real_pt (dx, dy)) (cut s h) (cut s (ExcellonSpec.moved_hit dx dy h)).
Proof.
  intro p. unfold cut. rewrite tool_moved. split; intros (t & d & Ht & Hd & C); exists t, d; (split; [exact Ht|]; split; [exact Hd|]).
  - destruct h as [o c|o [[a|] [b|]] [[x|] [y|]] r]; cbn [ExcellonSpec.moved_hit ExcellonSpec.omove fst snd option_map] in C; try exact C.
    + rewrite real_moved in C. apply (disc_sim 1 (real_pt (dx, dy)) ltac:(lra)). now rewrite Rmult_1_l.
    + change (a + dx, b + dy)%Qc with (ExcellonSpec.move dx dy (a, b)) in C. change (x + dx, y + dy)%Qc with (ExcellonSpec.move dx dy (x, y)) in C. rewrite !real_moved in C.
      revert C. apply stroke_sim; [lra|apply segment_sim; lra|]. intro q. unfold magnify. destruct q. cbn [fst snd]. now rewrite !Rmult_1_l.
  - destruct h as [o c|o [[a|] [b|]] [[x|] [y|]] r]; cbn [ExcellonSpec.moved_hit ExcellonSpec.omove fst snd option_map]; try exact C.
    + rewrite real_moved. apply (disc_sim 1 (real_pt (dx, dy)) ltac:(lra)) in C. now rewrite Rmult_1_l in C.
    + change (a + dx, b + dy)%Qc with (ExcellonSpec.move dx dy (a, b)). change (x + dx, y + dy)%Qc with (ExcellonSpec.move dx dy (x, y)). rewrite !real_moved.
      revert C. apply stroke_sim; [lra|apply segment_sim; lra|]. intro q. unfold magnify. destruct q. cbn [fst snd]. now rewrite !Rmult_1_l.
Qed.
Lemma complete_moved dx dy p : ExcellonSpec.complete p -> ExcellonSpec.complete (ExcellonSpec.omove dx dy p).
Proof. destruct p as [[x|] [y|]]; unfold ExcellonSpec.complete; cbn [ExcellonSpec.omove fst snd option_map]; intros [A B]; split; congruence. Qed.
Lemma drills_moved dx dy f f' : drills f -> ExcellonFile.offset dx dy f = Ok f' -> drills f'.
Proof.
  intros [C D] O. destruct (offset_hits dx dy f f' C O) as [H S]. split; [|rewrite S].
  - intros h J. rewrite H in J. rewrite S. apply in_map_iff in J as (h0 & <- & J). rewrite tool_moved. destruct (C h0 J) as [A B]. split; [exact A|].
    destruct h0 as [o c|o a b r]; cbn [ExcellonSpec.moved_hit]; [exact B|]. destruct B. split; now apply complete_moved.
  - intros h t J Ht. rewrite H in J. apply in_map_iff in J as (h0 & <- & J). rewrite tool_moved in Ht. exact (D h0 t J Ht).
Qed.
Lemma cuts_moved dx dy f f' : drills f -> ExcellonFile.offset dx dy f = Ok f' -> alike_shape 1 (real_pt (dx, dy)) (cuts f) (cuts f').
Proof.
  intros [C D] O p. destruct (offset_hits dx dy f f' C O) as [H S]. unfold cuts. rewrite H, S. split.
  - intros (h & J & X). apply in_map_iff in J as (h0 & <- & J). exists h0. split; [exact J|]. now apply (cut_moved dx dy).
  - intros (h & J & X). exists (ExcellonSpec.moved_hit dx dy h). split; [now apply in_map|]. now apply (cut_moved dx dy).
Qed.
Lemma bounds_sim k d b s s' : 0 < k -> alike_shape k d s s' -> bounds b s -> bounds (similar_box k d b) s'.
Proof.
  intros K A [E ((p1 & P1 & X1) & (p2 & P2 & X2) & (p3 & P3 & X3) & (p4 & P4 & X4))]. split.
  - intros p P. destruct (sim_onto k d K p) as (q & ->). apply A in P. apply E in P. unfold inside, similar_box, similar in *. cbn [fst snd] in *. nra.
  - unfold touches, similar_box. cbn [fst snd]. repeat split.
    + exists (similar k d p1). split; [now apply A|]. unfold similar. cbn [fst]. now rewrite X1.
    + exists (similar k d p2). split; [now apply A|]. unfold similar. cbn [fst]. now rewrite X2.
    + exists (similar k d p3). split; [now apply A|]. unfold similar. cbn [snd]. now rewrite X3.
    + exists (similar k d p4). split; [now apply A|]. unfold similar. cbn [snd]. now rewrite X4.
Qed.
Lemma below_moved dx dy f f' s p : drills f -> ExcellonFile.offset dx dy f = Ok f' -> below_cuts f s p -> below_cuts f' s (similar 1 (real_pt (dx, dy)) p).
Proof.
  intros [C D] O B h J X. destruct (offset_hits dx dy f f' C O) as [H S]. rewrite H in J. rewrite S in *. apply in_map_iff in J as (h0 & <- & J). apply (proj1 (cut_moved dx dy _ h0 p)) in X.
  destruct (B h0 J X) as (q & Q & L). exists (similar 1 (real_pt (dx, dy)) q). split; [now apply (cut_moved dx dy)|]. unfold similar. cbn [snd]. rewrite !Rmult_1_l. lra.
Qed.
Lemma moved_drills fill f s dx dy b : filling fill -> drills f -> 0 < s -> bounds b (cuts f) -> within 100000000000 b -> within 100000000000 (similar_box 1 (real_pt (dx, dy)) b) ->
  exists f' img img', ExcellonFile.offset dx dy f = Ok f' /\ render_drills fill s false f = Ok img /\ render_drills fill s false f' = Ok img' /\
    (forall p, below_cuts f s p -> (img' (pixel s b false p) <-> img (pixel s b false p))) /\
    exists size, drills_size s f = Ok size /\ drills_size s f' = Ok size.
Proof.
  intros Fi D S B W W'. destruct (ExcellonMore.C43_lemma dx dy f (proj1 D)) as (f' & O & _). pose proof (drills_moved dx dy f f' D O) as D'. pose proof (cuts_moved dx dy f f' D O) as A.
  pose proof (bounds_sim 1 (real_pt (dx, dy)) b _ _ ltac:(lra) A B) as B'.
  destruct (drills_shown fill f s b Fi D S B W) as (img & R & H). destruct (drills_shown fill f' s _ Fi D' S B' W') as (img' & R' & H'). exists f', img, img'. split; [exact O|]. split; [exact R|]. split; [exact R'|]. split.
  - intros p T0. rewrite (H p T0). rewrite <- (A p). rewrite <- (H' _ (below_moved dx dy f f' s p D O T0)). rewrite pixel_sim, Rmult_1_l. reflexivity.
  - eexists. split; [exact (drills_size_is f s b D B W)|]. rewrite (drills_size_is f' s _ D' B' W'). unfold similar_box. cbn [fst snd]. f_equal. f_equal; ring.
Qed.
