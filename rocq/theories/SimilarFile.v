(** Images of moved and of converted files. *)
From Coq Require Import Lra Lia.
From Verif Require Import PyBase QcLib GeomModel GeomSpec GeomProofs HullSpec CairoModel CairoSpec CairoProofs CairoScale MacroModel AmModel AmSpec MacroGeomModel MacroGeomSpec MacroGeomProofs ShowModel ShowSpec ShowProofs ShowFile ShowMacro CamShowModel CamShowSpec CamShowProofs SimilarSpec SimilarProofs.
From Verif Require Import GerberText HeapModel HeapSpec.
From Verif Require GerberEval GerberEvalSpec GerberEvalProofs GerberConv GerberConvSpec GerberConvProofs PropGerberConv ScaleSpec ScaleProofs PropScale.
Import ListNotations GerberEvalSpec.
Open Scope R_scope.
Open Scope list_scope.

Lemma opened fc l f : GerberConv.open_file fc l = Ok f -> exists st l', GerberEval.evaluate_all fc GerberEval.g_init l = Ok (st, l').
Proof. unfold GerberConv.open_file. destruct (GerberEval.evaluate_all fc GerberEval.g_init l) as [[st l']|]; [eauto|discriminate]. Qed.
Lemma shown_opened fill fc s l st l' ms b : sensible fill -> 0 < s -> GerberEval.evaluate_all fc GerberEval.g_init l = Ok (st, l') -> image fc [] l = Some ms -> Forall fair ms ->
  Forall (fun m => exists q, extent m q) ms -> file_box ms b -> within 1000000 b ->
  exists img, render_whole fill fc s false l = Ok img /\ forall p, below_tops fill s ms p -> (img (pixel s b false p) <-> shows fill ms p).
Proof.
  intros Se S E Im F N B W. rewrite (whole_unfold fill fc s false l st l' ms b Se E Im F N B W).
  destruct (box_order b _ B) as [X Y]. destruct (file_shown fill Se fc l st l' ms s b false E Im F S X Y) as (img & R & H). exists img. split; [exact R|]. intros p T. split.
  - intro I0. apply H; [|exact T|exact I0]. unfold render_file in R. destruct (mapM _ _) as [items|]; [|discriminate]. cbn [bind] in R. exact (in_bounds fill b s false false items img p S X Y R I0).
  - intro Sh. apply H; [|exact T|exact Sh]. destruct Sh as (m1 & m & m2 & -> & _ & C & _). destruct B as [En _].
    assert (J : In m (m1 ++ m :: m2)) by (apply in_or_app; right; now left). rewrite Forall_forall in F. refine (mark_inside fill m b Se (F m J) _ p C). intros q Q. apply En. eauto.
Qed.
Lemma size_opened fill fc s l st l' ms b : sensible fill -> 0 < s -> GerberEval.evaluate_all fc GerberEval.g_init l = Ok (st, l') -> image fc [] l = Some ms -> Forall fair ms -> Forall (fun m => exists q, extent m q) ms ->
  file_box ms b -> within 1000000 b -> whole_size fc s l = Ok (s * (snd (fst b) - fst (fst b)), s * (snd (snd b) - fst (snd b))).
Proof.
  intros Se S Ev Im F N B W. unfold whole_size. rewrite Ev. cbn [bind fst]. unfold whole_context.
  destruct (proj2 (GerberEvalProofs.evaluate_image fc l [] GerberEval.g_init st l' (GerberEvalProofs.inv_init fc) Ev)) as (ms' & Im' & Sh). assert (ms' = ms) by congruence. subst ms'.
  destruct (marks_box fill (GerberEval.g_store st) Se (GerberEval.g_prims st) ms Sh F N) as (bs & Bs & Bo). rewrite Bs. cbn [bind]. rewrite (whole_is extent bs ms b Bo B W).
  destruct B as [En ((p & P & _) & _)]. pose proof (En p P) as I0. unfold inside in I0. unfold size_px, scale_point. cbn [set_bounds size scale fst snd]. rewrite !Rabs_right by lra. f_equal. f_equal; ring.
Qed.

(** ** Similar files *)
Lemma similar_files fill fc k d s l f l' f' ms ms' b : sensible fill -> 0 < k -> (forall l, alike_shape k d (fill l) (fill (sims k d l))) -> 0 < s ->
  GerberConv.open_file fc l = Ok f -> GerberConv.open_file fc l' = Ok f' -> image fc [] l = Some ms -> image fc [] l' = Some ms' -> Forall2 (like_mark k d) ms ms' ->
  Forall fair ms -> Forall (fun m => exists q, extent m q) ms -> file_box ms b -> within 1000000 b -> within 1000000 (similar_box k d b) ->
  exists img img', render_whole fill fc (k * s) false l = Ok img /\ render_whole fill fc s false l' = Ok img' /\
    (forall p, below_tops fill (k * s) ms p -> (img' (pixel (k * s) b false p) <-> img (pixel (k * s) b false p))) /\
    exists size, whole_size fc (k * s) l = Ok size /\ whole_size fc s l' = Ok size.
Proof.
  intros Se K Al S O O' Im Im' L F N B W W'. assert (KS : 0 < k * s) by now apply Rmult_lt_0_compat.
  destruct (opened fc l f O) as (st & l1 & E). destruct (opened fc l' f' O') as (st' & l1' & E').
  pose proof (fairs_sim k d K ms ms' L F) as F'. pose proof (extents_sim k d K ms ms' L N) as N'. pose proof (file_box_sim k d K ms ms' b L B) as B'.
  destruct (shown_opened fill fc (k * s) l st l1 ms b Se KS E Im F N B W) as (img & R & H).
  destruct (shown_opened fill fc s l' st' l1' ms' _ Se S E' Im' F' N' B' W') as (img' & R' & H').
  exists img, img'. split; [exact R|]. split; [exact R'|]. split.
  - intros p T. rewrite (H p T). rewrite <- (pixel_sim k d s b p). rewrite (H' (similar k d p)); [|now apply (below_sim k d K fill (s_filling _ Se) Al ms ms')].
    apply (shows_sim k d K fill (s_filling _ Se) Al ms ms' L p).
  - eexists. split; [exact (size_opened fill fc (k * s) l st l1 ms b Se KS E Im F N B W)|]. rewrite (size_opened fill fc s l' st' l1' ms' _ Se S E' Im' F' N' B' W').
    unfold similar_box. cbn [fst snd]. f_equal. f_equal; ring.
Qed.

(** ** Moved files *)
Lemma along_moves fill d : moves_along fill -> forall l, alike_shape 1 d (fill l) (fill (sims 1 d l)).
Proof. intros M l p. apply M. Qed.
Lemma kx_1 x : kx 1 x x.
Proof. unfold kx. ring. Qed.
Lemma shape_1 s : like_shape 1 s s.
Proof. destruct s; cbn [like_shape]; repeat split; apply kx_1. Qed.
Lemma pen_1 o : like_pen 1 o o.
Proof. destruct o; cbn; auto using shape_1. Qed.
Lemma kp_plus d p : kp 1 (real_pt d) p (GerberConvSpec.plus d p).
Proof. unfold kp, real_pt, similar, GerberConvSpec.plus. cbn [fst snd]. f_equal; rewrite real_plus; ring. Qed.
Lemma seg_moved d v : like_seg 1 (real_pt d) v (GerberConvSpec.translate_seg d v).
Proof.
  destruct v as [a b o pol u|a b c dir o q pol u]; cbn; repeat split; auto using kp_plus, pen_1. destruct c; cbn; auto using kp_plus.
Qed.
Lemma mark_moved d m : like_mark 1 (real_pt d) m (GerberConvSpec.translate d m).
Proof.
  destruct m as [v|l pol u|o]; cbn [like_mark GerberConvSpec.translate].
  - apply seg_moved.
  - split; [|reflexivity]. induction l; cbn [map]; constructor; auto using seg_moved.
  - split; [apply shape_1|]. split; [|reflexivity]. cbn. destruct (GerberEval.o_pos o); cbn; auto using kp_plus.
Qed.
Lemma marks_like k d (g : mark -> mark) ms : Forall (fun m => like_mark k d m (g m)) ms -> Forall2 (like_mark k d) ms (map g ms).
Proof. induction 1; constructor; assumption. Qed.
Lemma fair_centred m : fair m -> GerberConvSpec.centred m.
Proof.
  destruct m as [v|l pol u|o]; cbn [fair GerberConvSpec.centred]; [|intros (v & l' & _ & _ & F)|auto].
  - destruct v as [|a b [c|] dir [o|] q pol u]; cbn; tauto.
  - revert F. apply Forall_impl. intros [|a b [c|] dir o q pol' u']; cbn; tauto.
Qed.
Lemma moved_shown fill fc s d l f ms b : sensible fill -> moves_along fill -> 0 < s -> GerberConvSpec.equivariant fc -> GerberConvSpec.positioned l -> Forall GerberConvSpec.no_offsets l ->
  GerberConv.open_file fc l = Ok f -> image fc [] l = Some ms -> Forall fair ms -> Forall (fun m => exists q, extent m q) ms ->
  file_box ms b -> within 1000000 b -> within 1000000 (similar_box 1 (real_pt d) b) ->
  exists f' img img', GerberConv.file_offset d f = Ok f' /\ render_whole fill fc s false l = Ok img /\ render_whole fill fc s false (map fst (GerberConv.f_stmts f')) = Ok img' /\
    (forall p, below_tops fill s ms p -> (img' (pixel s b false p) <-> img (pixel s b false p))) /\
    exists size, whole_size fc s l = Ok size /\ whole_size fc s (map fst (GerberConv.f_stmts f')) = Ok size.
Proof.
  intros Se Mo S Eq Po No O Im F N B W W'. assert (Ce : Forall GerberConvSpec.centred ms) by (revert F; apply Forall_impl; exact fair_centred).
  destruct (PropGerberConv.C32_offset_translates_partial d fc l f ms Eq Po No O Im Ce) as (f' & Of & Op & Im').
  assert (L : Forall2 (like_mark 1 (real_pt d)) ms (map (GerberConvSpec.translate d) ms)) by (apply marks_like, Forall_forall; intros; apply mark_moved).
  destruct (similar_files fill fc 1 (real_pt d) s l f _ f' ms _ b Se ltac:(lra) (along_moves fill (real_pt d) Mo) S O Op Im Im' L F N B W W') as (img & img' & H). rewrite !Rmult_1_l in H.
  destruct H as (R & R' & P & Sz). exists f', img, img'. auto.
Qed.

(** ** Converted files *)
Lemma along_magnified fill k : filling fill -> 0 < k -> forall l, alike_shape k (0, 0) (fill l) (fill (sims k (0, 0) l)).
Proof.
  intros Fi K l p. assert (E : forall q, similar k (0, 0) q = magnify k q) by (intro; unfold similar, magnify; cbn [fst snd]; f_equal; ring).
  rewrite E. rewrite <- (magnified _ Fi k l p K). apply (same_curves _ Fi). unfold sims. induction l; cbn [map]; constructor; [intro t; apply E|assumption].
Qed.
Definition plain_obj (o : GerberEval.obj) : Prop := forall ps, GerberEval.o_shape o <> GerberEval.ShMacro ps.
Definition plain_seg (v : vseg) : Prop := match v with VLine _ _ (Some o) _ _ | VArc _ _ _ _ (Some o) _ _ _ => plain_obj o | _ => True end.
Definition plain_mark (m : mark) : Prop := match m with Stroke v => plain_seg v | Fill l _ _ => Forall plain_seg l | Stamp o => plain_obj o end.
Lemma aperture_plain n past o : Forall ScaleSpec.plain_apertures past -> aperture_of n past = Some o -> plain_obj o.
Proof.
  induction 1 as [|s past P F IH]; [discriminate|]. destruct s; cbn [aperture_of]; auto. destruct (Z.eq_dec _ _); [|auto]. cbn [ScaleSpec.plain_apertures] in P. intro A.
  destruct (definition past _ _) as [sh|] eqn:D; [|discriminate]. injection A as <-. intros ps. cbn [GerberEval.o_shape]. intros ->. unfold definition in D.
  destruct P as [ -> | [ -> | -> ] ]; revert D; change (teq (T "C") (T "C")) with true; change (teq (T "R") (T "C")) with false; change (teq (T "R") (T "R")) with true; change (teq (T "O") (T "C")) with false; change (teq (T "O") (T "R")) with false; change (teq (T "O") (T "O")) with true; cbn iota; destruct (hd [] _) as [|x1 [|x2 [|x3 [|x4 [|x5 dims]]]]]; discriminate.
Qed.
Lemma path_plain fc past s n : Forall ScaleSpec.plain_apertures past -> plain_seg (path fc past s (aperture_of n past)).
Proof.
  intro F. unfold path. pose proof (aperture_plain n past) as A. destruct (aperture_of n past) as [o|]; destruct (or_else _ _); cbn [plain_seg]; auto.
Qed.
Lemma contour_plain fc past : Forall ScaleSpec.plain_apertures past -> Forall plain_seg (contour fc past).
Proof.
  induction 1 as [|s past P F IH]; [constructor|]. cbn [contour].
  assert (X : Forall plain_seg (contour fc past ++ [path fc past s (aperture_of (current_selection past) past)])) by (apply Forall_app; split; [exact IH|]; constructor; [now apply path_plain|constructor]).
  destruct s; try (destruct (in_region past); [destruct (action past _)|]; try exact IH; try exact X; constructor). destruct m; [|constructor]. destruct (in_region past); [destruct (action past _)|]; try exact IH; try exact X; constructor.
Qed.
Lemma marks_plain fc past s ms : Forall ScaleSpec.plain_apertures past -> marks fc past s = Some ms -> Forall plain_mark ms.
Proof.
  intros F H. pose proof (contour_plain fc past F) as C. pose proof (aperture_plain (current_selection past) past) as A. pose proof (path_plain fc past s (current_selection past) F) as P. unfold marks in H.
  assert (Q : forall o, aperture_of (current_selection past) past = Some o -> plain_obj o) by auto. clear A.
  assert (G : match action past s, in_region past with
      | Other, _ => Some []
      | Move, Off => Some []
      | Move, On => match contour fc past with _ :: _ :: _ => Some [Fill (contour fc past) (current_polarity past) (current_units past)] | _ => Some [] end
      | Draw, On => Some []
      | Draw, Off => match aperture_of (current_selection past) past with Some _ => Some [Stroke (path fc past s (aperture_of (current_selection past) past))] | None => None end
      | Flash, _ => match aperture_of (current_selection past) past with Some o => Some [Stamp (GerberEval.mkObj (GerberEval.o_shape o) (Some (target past s)) (current_polarity past) (current_units past))] | None => None end
      end = Some ms -> Forall plain_mark ms).
  { destruct (action past s), (in_region past); intro E; try (injection E as <-; constructor).
    - destruct (aperture_of (current_selection past) past); [|discriminate]. injection E as <-. constructor; [exact P|constructor].
    - destruct (contour fc past) as [|? [|? ?]]; injection E as <-; [apply Forall_nil|apply Forall_nil|apply Forall_cons; [exact C|apply Forall_nil]].
    - destruct (aperture_of (current_selection past) past); [|discriminate]. injection E as <-. constructor; [|constructor]. exact (Q _ eq_refl).
    - destruct (aperture_of (current_selection past) past); [|discriminate]. injection E as <-. constructor; [|constructor]. exact (Q _ eq_refl). }
  destruct s; try exact (G H). destruct m; [exact (G H)|]. destruct (in_region past); [|now injection H as <-]. destruct (contour fc past); [now injection H as <-|]. injection H as <-. constructor; [exact C|constructor].
Qed.
Lemma image_plain fc : forall l past ms, Forall ScaleSpec.plain_apertures past -> Forall ScaleSpec.plain_apertures l -> image fc past l = Some ms -> Forall plain_mark ms.
Proof.
  induction l as [|s l IH]; intros past ms Fp Fl H; cbn [image] in H; [injection H as <-; constructor|]. inversion Fl; subst.
  destruct (marks fc past s) as [a|] eqn:M; [|discriminate]. destruct (image fc (s :: past) l) as [b|] eqn:E; [|discriminate]. injection H as <-.
  apply Forall_app. split; [exact (marks_plain fc past s a Fp M)|]. apply (IH (s :: past)); auto.
Qed.
Lemma kx_times q x : kx (real q) x (q * x)%Qc.
Proof. unfold kx. apply real_mult. Qed.
Lemma kp_times q p : kp (real q) (0, 0) p (ScaleSpec.times q p).
Proof. unfold kp, real_pt, similar, ScaleSpec.times. cbn [fst snd]. f_equal; rewrite real_mult; ring. Qed.
Lemma shape_larger q s : (forall ps, s <> GerberEval.ShMacro ps) -> like_shape (real q) s (ScaleSpec.enlarge_shape q s).
Proof. destruct s; intro P; cbn [like_shape ScaleSpec.enlarge_shape]; try (repeat split; apply kx_times). exfalso. now apply (P prims). Qed.
Lemma seg_larger q u v : plain_seg v -> like_seg (real q) (0, 0) v (ScaleSpec.enlarge_seg q u v).
Proof.
  destruct v as [a b [o|] pol w|a b c dir [o|] qu pol w]; cbn; intro P; repeat split; auto using kp_times; try (apply shape_larger; exact P); destruct c; cbn; auto using kp_times.
Qed.
Lemma mark_larger q u m : plain_mark m -> like_mark (real q) (0, 0) m (ScaleSpec.enlarge q u m).
Proof.
  destruct m as [v|l pol w|o]; cbn [plain_mark like_mark ScaleSpec.enlarge]; intro P.
  - now apply seg_larger.
  - split; [|reflexivity]. induction P; cbn [map]; constructor; auto using seg_larger.
  - split; [now apply shape_larger|]. split; [|reflexivity]. cbn. destruct (GerberEval.o_pos o); cbn; auto using kp_times.
Qed.
