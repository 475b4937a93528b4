(** What images of files show exactly: Gerber files without macros, drill files, netlists. *)
From Coq Require Import Lra Qreals.
From Verif Require Import PyBase QcLib GeomModel GeomSpec GeomProofs CairoModel CairoSpec CairoProofs CairoLayer CairoScale CairoExactSpec CairoExact MacroGeomModel MacroGeomProofs ShowModel ShowSpec ShowProofs ShowFile CamShowModel CamShowSpec CamShowProofs CamShowDrill NetShowModel NetShowSpec NetShowProofs SimilarExact.
From Verif Require GerberEval GerberEvalProofs ExcellonModel ExcellonFile IpcModel.
Import ListNotations GerberEvalSpec.
Open Scope R_scope.
Open Scope list_scope.

Lemma darkened_half p (l l' : list (bool * shape)) : Forall2 (fun x y => fst x = fst y /\ (snd x p <-> snd y p)) l l' -> darkened l p -> darkened l' p.
Proof.
  intros F (l1 & s & l2 & -> & S & N). apply Forall2_app_inv_l in F as (m1 & m2' & F1 & F2 & ->). inversion F2 as [|? y ? m2 X F2' A B]; subst. destruct y as [d s']. destruct X as [E Q]. cbn [fst snd] in *. subst d.
  exists m1, s', m2. split; [reflexivity|]. split; [now apply Q|]. intros t J K. destruct (forall2_right _ _ _ _ F2' J) as ([d u] & Ju & E & Q'). cbn [fst snd] in *. subst d. apply (N u Ju). now apply Q'.
Qed.
Lemma darkened_same p (l l' : list (bool * shape)) : Forall2 (fun x y => fst x = fst y /\ (snd x p <-> snd y p)) l l' -> (darkened l p <-> darkened l' p).
Proof.
  intro F. split; [now apply darkened_half|]. apply darkened_half. clear - F. induction F as [|x y l l' [E Q] F IH]; constructor; [split; [congruence|now symmetry]|exact IH].
Qed.
Lemma kept_iff s b cov ext x p : bounds x ext -> (kept s b cov ext p <-> cov p /\ s * snd p - s * fst (snd b) <= rows s (fst (snd b)) (snd (snd x))).
Proof.
  intro B. split; [intros [C (y & By & L)]; rewrite (bounds_same _ _ _ B By); auto|]. intros [C L]. split; [exact C|]. exists x. auto.
Qed.
Lemma remains_kept fill s b d cov ext p : bounds (bbox d) ext -> (prim_shape fill (what d) p <-> cov p) -> (remains fill s b d p <-> kept s b cov ext p).
Proof. intros B Q. rewrite (kept_iff s b cov ext _ p B). unfold remains. now rewrite Q. Qed.

(** ** Gerber files *)
Lemma no_macro_stamp m : no_macro m -> ~ macro_stamp m.
Proof. destruct m as [| |o]; cbn; auto. intros N. destruct (GerberEval.o_shape o) as [| | | |ps] eqn:E; auto. intros _. exact (N o ps eq_refl E). Qed.
Section Gerber.
Variable fill : list curve -> shape.
Hypothesis Se : sensible fill.
Definition exactly (d : drawn) (m : mark) : Prop := faithful fill d m /\ bounds (bbox d) (extent m).
Lemma views_exact h : forall l ms, map (deref h) l = map Some ms -> Forall fair ms -> Forall no_macro ms ->
  exists ds, mapM (view h) l = Ok (map Single ds) /\ Forall2 exactly ds ms /\ (Forall solid_mark ms -> Forall (fun d => solid (what d)) ds).
Proof.
  induction l as [|p l IH]; intros [|m ms] D F N; try discriminate; [exists []; split; [reflexivity|split; constructor]|].
  cbn [map] in D. injection D as D1 D2. inversion F; subst. inversion N; subst. destruct (IH ms D2) as (ds & V & X & Z); [assumption|assumption|].
  assert (Nm : ~ macro_stamp m) by (now apply no_macro_stamp).
  destruct (view_single fill Se h p m Nm D1) as (d & V1 & Fa); [assumption|]. destruct (single_box fill h p m Se Nm D1) as (d' & V2 & B); [assumption|]. rewrite V1 in V2. apply ok_inj in V2. injection V2 as <-.
  exists (d :: ds). cbn [mapM map]. rewrite V1. cbn [bind]. rewrite V. cbn [bind]. split; [reflexivity|]. split; [constructor; [split; assumption|exact X]|].
  intro So. inversion So; subst. constructor; [now apply (view_solid h p m d)|now apply Z].
Qed.
Lemma exact_kept s b p ds ms : Forall2 exactly ds ms -> (darkened (map (item_remains fill s b) (map Single ds)) p <-> darkened (map (mark_kept fill s b) ms) p).
Proof.
  intro F. apply darkened_same. induction F as [|d m ds ms [[Dk [R Q]] B] F IH]; cbn [map]; constructor; [|exact IH]. cbn [item_remains mark_kept fst snd]. split; [exact Dk|]. now apply remains_kept.
Qed.
Lemma file_exact fc l st l' ms s b mir : GerberEval.evaluate_all fc GerberEval.g_init l = Ok (st, l') -> image fc [] l = Some ms -> Forall fair ms -> Forall no_macro ms ->
  0 < s -> fst (fst b) <= snd (fst b) -> fst (snd b) <= snd (snd b) ->
  exists img, render_file fill s b false mir (GerberEval.g_store st) (GerberEval.g_prims st) = Ok img /\
    forall p, inside b p -> (img (pixel s b mir p) <-> darkened (map (mark_kept fill s b) ms) p).
Proof.
  intros Ev Im F N S X Y. destruct (proj2 (GerberEvalProofs.evaluate_image fc l [] GerberEval.g_init st l' (GerberEvalProofs.inv_init fc) Ev)) as (ms' & Im' & Sh).
  assert (ms' = ms) by congruence. subst ms'. destruct (views_exact _ _ ms Sh F N) as (ds & V & Xs & _). unfold render_file. rewrite V. cbn [bind].
  destruct (layer_exact fill b s mir (map Single ds) (s_filling _ Se) S X Y) as (img & R & H).
  { clear - Xs. induction Xs as [|d m ds ms [[_ [R _]] _] Xs IH]; cbn [map]; constructor; [exact R|exact IH]. }
  exists img. split; [exact R|]. intros p P. rewrite (H p P). now apply exact_kept.
Qed.
Lemma file_exact_inverted fc l st l' ms s b mir : GerberEval.evaluate_all fc GerberEval.g_init l = Ok (st, l') -> image fc [] l = Some ms -> Forall fair ms -> Forall no_macro ms -> Forall solid_mark ms ->
  0 < s -> fst (fst b) <= snd (fst b) -> fst (snd b) <= snd (snd b) ->
  exists img, render_file fill s b true mir (GerberEval.g_store st) (GerberEval.g_prims st) = Ok img /\
    forall p, inside b p -> (img (pixel s b mir p) <-> ~ darkened (map (mark_kept fill s b) ms) p).
Proof.
  intros Ev Im F N So S X Y. destruct (proj2 (GerberEvalProofs.evaluate_image fc l [] GerberEval.g_init st l' (GerberEvalProofs.inv_init fc) Ev)) as (ms' & Im' & Sh).
  assert (ms' = ms) by congruence. subst ms'. destruct (views_exact _ _ ms Sh F N) as (ds & V & Xs & Z). unfold render_file. rewrite V. cbn [bind].
  destruct (inverted_exact fill b s mir (map Single ds) (s_filling _ Se) S X Y) as (img & R & H).
  { specialize (Z So). clear - Xs Z So. induction Xs as [|d m ds ms [[Dk [(E & Si & _) _]] _] Xs IH]; cbn [map]; constructor; inversion Z; inversion So as [|? ? Sm So']; subst; [|now apply IH].
    split; [exact E|]. split; [exact Si|]. split; [rewrite Dk; apply Sm|assumption]. }
  exists img. split; [exact R|]. intros p P. rewrite (H p P). now rewrite (exact_kept s b p ds ms Xs).
Qed.
End Gerber.
Lemma whole_exact fill fc s l ms b : sensible fill -> 0 < s -> definitions_ok [] l -> image fc [] l = Some ms -> Forall fair ms -> Forall no_macro ms -> Forall (fun m => exists q, extent m q) ms ->
  file_box ms b -> within 1000000 b ->
  exists img, render_whole fill fc s false l = Ok img /\ forall p, img (pixel s b false p) <-> darkened (map (mark_kept fill s b) ms) p.
Proof.
  intros Se S D Im F Nm N B W. destruct (evaluates fc l ms D Im) as (st & l' & E). rewrite (whole_unfold fill fc s false l st l' ms b Se E Im F N B W).
  destruct (box_order b _ B) as [X Y]. destruct (file_exact fill Se fc l st l' ms s b false E Im F Nm S X Y) as (img & R & H). exists img. split; [exact R|]. intros p. split.
  - intro I0. apply H; [|exact I0]. unfold render_file in R. destruct (mapM _ _) as [items|]; [|discriminate]. cbn [bind] in R. exact (in_bounds fill b s false false items img p S X Y R I0).
  - intro Sh. apply H; [|exact Sh]. destruct Sh as (l1 & sh & l2 & Em & C & _).
    assert (J : In (true, sh) (map (mark_kept fill s b) ms)) by (rewrite Em; apply in_or_app; right; now left). apply in_map_iff in J as (m & Ek & J). injection Ek as _ <-. destruct C as [C _].
    destruct B as [En _]. rewrite Forall_forall in F. refine (mark_inside fill m b Se (F m J) _ p C). intros q Q. apply En. eauto.
Qed.
Lemma whole_exact_inverted fill fc s l ms b : sensible fill -> 0 < s -> definitions_ok [] l -> image fc [] l = Some ms -> Forall fair ms -> Forall no_macro ms -> Forall solid_mark ms -> Forall (fun m => exists q, extent m q) ms ->
  file_box ms b -> within 1000000 b ->
  exists img, render_whole fill fc s true l = Ok img /\ forall p, inside b p -> (img (pixel s b false p) <-> ~ darkened (map (mark_kept fill s b) ms) p).
Proof.
  intros Se S D Im F Nm So N B W. destruct (evaluates fc l ms D Im) as (st & l' & E). rewrite (whole_unfold fill fc s true l st l' ms b Se E Im F N B W).
  destruct (box_order b _ B) as [X Y]. now apply (file_exact_inverted fill Se fc l st l').
Qed.

(** ** Drill files *)
Lemma drills_kept fill f s b ds p : Forall2 (fun d h => single_of (ExcellonModel.xf_store f) h d) ds (ExcellonModel.xf_hits f) ->
  (darkened (map (item_remains fill s b) (map Single ds)) p <-> cuts_kept f s b p).
Proof.
  intro F. unfold cuts_kept. split.
  - intros (l1 & sh & l2 & Em & C & _). assert (J : In (true, sh) (map (item_remains fill s b) (map Single ds))) by (rewrite Em; apply in_or_app; right; now left).
    apply in_map_iff in J as (i & Ek & J). apply in_map_iff in J as (d & <- & J). injection Ek as _ <-. destruct (forall2_left _ _ _ d F J) as (h & Jh & (_ & _ & _ & B & X)). exists h. split; [exact Jh|].
    apply (proj1 (remains_kept fill s b d _ _ p B (X p fill)) C).
  - intros (h & J & K). destruct (forall2_right _ _ _ h F J) as (d & Jd & (Dk & _ & _ & B & X)). apply in_split in Jd as (d1 & d2 & ->).
    exists (map (item_remains fill s b) (map Single d1)), (remains fill s b d), (map (item_remains fill s b) (map Single d2)). split; [rewrite !map_app; cbn [map item_remains]; now rewrite Dk|].
    split; [exact (proj2 (remains_kept fill s b d _ _ p B (X p fill)) K)|]. intros s' J'. exfalso. apply in_map_iff in J' as (i & Ek & J'). apply in_map_iff in J' as (x & <- & J'). injection Ek as Dx _.
    destruct (forall2_left _ _ _ x F) as (h' & _ & (Dk' & _)); [apply in_or_app; right; now right|]. congruence.
Qed.
Lemma drill_layer_exact fill f s b mir : filling fill -> drills f -> 0 < s -> fst (fst b) <= snd (fst b) -> fst (snd b) <= snd (snd b) ->
  exists img, render_drill_layer fill s b false mir f = Ok img /\ forall p, inside b p -> (img (pixel s b mir p) <-> cuts_kept f s b p).
Proof.
  intros Fi D S X Y. destruct (hits_drawn (ExcellonModel.xf_store f) (ExcellonModel.xf_hits f) ((0, 0), (0, 0))%Qc (drills_hits f D)) as (ds & _ & M & _ & _ & F).
  unfold render_drill_layer. rewrite M. cbn [bind]. destruct (layer_exact fill b s mir (map Single ds) Fi S X Y) as (img & R & H); [now apply (singles_renderable fill _ _ _ F)|].
  exists img. split; [exact R|]. intros p I0. rewrite (H p I0). now apply drills_kept.
Qed.
Lemma drill_layer_exact_inverted fill f s b mir : filling fill -> drills f -> 0 < s -> fst (fst b) <= snd (fst b) -> fst (snd b) <= snd (snd b) ->
  exists img, render_drill_layer fill s b true mir f = Ok img /\ forall p, inside b p -> (img (pixel s b mir p) <-> ~ cuts_kept f s b p).
Proof.
  intros Fi D S X Y. destruct (hits_drawn (ExcellonModel.xf_store f) (ExcellonModel.xf_hits f) ((0, 0), (0, 0))%Qc (drills_hits f D)) as (ds & _ & M & _ & _ & F).
  unfold render_drill_layer. rewrite M. cbn [bind]. destruct (inverted_exact fill b s mir (map Single ds) Fi S X Y) as (img & R & H); [now apply (singles_renderable fill _ _ _ F)|].
  exists img. split; [exact R|]. intros p I0. rewrite (H p I0). now rewrite (drills_kept fill f s b ds p F).
Qed.
Lemma drills_exact fill f s b : filling fill -> drills f -> 0 < s -> bounds b (cuts f) -> within 100000000000 b ->
  exists img, render_drills fill s false f = Ok img /\ forall p, img (pixel s b false p) <-> cuts_kept f s b p.
Proof.
  intros Fi D S B W. destruct (box_order b _ B) as [X Y]. destruct (drill_layer_exact fill f s b false Fi D S X Y) as (img & R & H).
  assert (R' : render_drills fill s false f = Ok img).
  { destruct (hits_drawn (ExcellonModel.xf_store f) (ExcellonModel.xf_hits f) ((ExcellonFile.sentinel, - ExcellonFile.sentinel), (ExcellonFile.sentinel, - ExcellonFile.sentinel))%Qc (drills_hits f D)) as (ds & b' & M & Bx & Rb & F).
    assert (E : real_box b' = b).
    { rewrite Rb. unfold real_box. cbn [fst snd]. rewrite real_opp. unfold ExcellonFile.sentinel. replace (real (zq 100000000000)) with 100000000000.
      - apply (whole_gen (cut (ExcellonModel.xf_store f)) (map bbox ds) (ExcellonModel.xf_hits f)); [|exact B|exact W]. clear - F. induction F as [|d h ds hs X F IH]; cbn [map]; constructor; [apply X|exact IH].
      - unfold real, zq. transitivity (Q2R (inject_Z 100000000000)); [unfold Q2R, inject_Z; cbn [Qnum Qden]; field|]. apply Qeq_eqR. cbn [this Q2Qc]. symmetry. apply Qred_correct. }
    unfold render_drills, ExcellonFile.bounding_box. rewrite Bx. cbn [bind]. rewrite E. exact R. }
  exists img. split; [exact R'|]. intros p. split.
  - intro I0. apply H; [|exact I0]. unfold render_drill_layer in R. destruct (mapM _ _) as [items|]; [|discriminate]. cbn [bind] in R. exact (in_bounds fill b s false false items img p S X Y R I0).
  - intro C. apply H; [|exact C]. destruct C as (h & J & [C _]). apply (proj1 B). exists h. auto.
Qed.

(** ** Netlists *)
Section Nets.
Variables (fill : list curve -> shape) (glyphs : list ascii -> pt -> shape).
Definition dot_kept (s : R) (b : rbox) (c : context) (r : record) (p : pt) : Prop :=
  disc (record_position c r) (15 / 2000) p /\ s * snd p - s * fst (snd b) <= rows s (fst (snd b)) (snd (record_position c r) + 15 / 2000).
Lemma spots_exact s b mir l p : filling fill -> 0 < s -> fst (fst b) <= snd (fst b) -> fst (snd b) <= snd (snd b) -> inside b p ->
  (exists r, In r l /\ spot fill (set_bounds s b false mir) r (pixel s b mir p)) <-> (exists r, In r l /\ dot_kept s b (set_bounds s b false mir) r p).
Proof.
  intros Fi S X Y I0. set (c := set_bounds s b false mir) in *.
  destruct (layer_exact fill b s mir (map Single (map (record_dot c) l)) Fi S X Y) as (img & R & H).
  { apply Forall_forall. intros i J. apply in_map_iff in J as (d & <- & J). apply in_map_iff in J as (r & <- & J). apply dot_renderable. }
  fold c in R. unfold render_layer in R. rewrite flat_single in R.
  destruct (dots_union fill c l eq_refl (fun q => invert c = true /\ on_surface c q)) as (img' & R' & H'). assert (E : img' = img) by congruence. subst img'.
  assert (Q : img (pixel s b mir p) <-> exists r, In r l /\ spot fill c r (pixel s b mir p)).
  { rewrite (H' _). split; [intros [[V _]|K]; [discriminate|exact K]|auto]. }
  assert (Z : forall r, remains fill s b (record_dot c r) p <-> dot_kept s b c r p).
  { intro r. unfold remains, dot_kept. pose proof (dot_shape fill c r p) as Ds. replace (snd (snd (bbox (record_dot c r)))) with (snd (record_position c r) + 15 / 2000); [tauto|].
    cbn [record_dot bbox]. unfold circle_box, BoxModel.circle_box, BoxModel.around. cbn [fst snd]. unfold half. lra. }
  rewrite <- Q, (H p I0). clear - Z. split.
  - intros (l1 & sh & l2 & Em & C & _). assert (J : In (true, sh) (map (item_remains fill s b) (map Single (map (record_dot c) l)))) by (rewrite Em; apply in_or_app; right; now left).
    apply in_map_iff in J as (i & Ek & J). apply in_map_iff in J as (d & <- & J). apply in_map_iff in J as (r & <- & J). injection Ek as <-. exists r. split; [exact J|]. now apply Z.
  - intros (r & J & K). apply in_split in J as (d1 & d2 & ->). exists (map (item_remains fill s b) (map Single (map (record_dot c) d1))), (remains fill s b (record_dot c r)), (map (item_remains fill s b) (map Single (map (record_dot c) d2))).
    split; [rewrite !map_app; reflexivity|]. split; [now apply Z|]. intros s' J'. exfalso. apply in_map_iff in J' as (i & Ek & J'). apply in_map_iff in J' as (x & <- & J'). apply in_map_iff in J' as (y & <- & J'). discriminate Ek.
Qed.
Lemma netlist_exact s b mir l n : filling fill -> 0 < s -> fst (fst b) <= snd (fst b) -> fst (snd b) <= snd (snd b) ->
  let v := (fst (fst b), fst (snd b)) in
  exists img, render_netlist fill glyphs (Some (set_bounds s b false mir)) l n = Ok img /\
  forall p, inside b p -> (img (pixel s b mir p) <-> dots_kept v l n s b p \/ named glyphs s v l n (pixel s b mir p)).
Proof.
  intros Fi S X Y v. cbn [render_netlist]. destruct (records_union fill glyphs (set_bounds s b false mir) (records_of l n) eq_refl (fun q => false = true /\ on_surface (set_bounds s b false mir) q)) as (img & R & H).
  exists img. split; [exact R|]. intros p I0. rewrite (H _). pose proof (spots_exact s b mir (records_of l n) p Fi S X Y I0) as SP. split.
  - intros [[F _]|([pos name] & J & [K|K])]; [discriminate| |].
    + left. destruct (proj1 SP (ex_intro _ (pos, name) (conj J K))) as ([pos' name'] & J' & D). exists pos', name'. split; [now apply records_reachable|exact D].
    + right. exists pos, name. split; [now apply records_reachable|exact K].
  - intros [(pos & name & J & D)|(pos & name & J & D)]; right.
    + apply records_reachable in J. destruct (proj2 SP (ex_intro _ (pos, name) (conj J D))) as (r & Jr & K). exists r. auto.
    + exists (pos, name). split; [now apply records_reachable|]. right. exact D.
Qed.
End Nets.
Lemma statements_exact fill fc s mir l ms b : sensible fill -> 0 < s -> definitions_ok [] l -> image fc [] l = Some ms -> Forall fair ms -> Forall no_macro ms ->
  limited (zq 1000000) (x_coords l ++ y_coords l) -> coordinate_box l b ->
  exists img, render_statements fill fc s false mir l = Ok img /\
    forall p, inside b p -> (img (pixel s b mir p) <-> darkened (map (mark_kept fill s b) ms) p).
Proof.
  intros Se S D Im F N L B. destruct (evaluates fc l ms D Im) as (st & l' & E). rewrite (render_unfold fill fc s false mir l st l' b E L B).
  destruct (coordinate_order l b B). now apply (file_exact fill Se fc l st l').
Qed.
