(** Images, exactly. *)
From Coq Require Import Lra Lia.
From Verif Require Import PyBase GeomModel GeomSpec GeomProofs CairoModel CairoSpec CairoProofs CairoLayer CairoExactSpec.
Import ListNotations.
Open Scope R_scope.
Open Scope list_scope.

Lemma clip_exact c b v : 0 < scale c -> inside b v ->
  (clip c b (scale c * fst v, scale c * snd v - snd (origin_px c)) <-> scale c * snd v - snd (origin_px c) <= whole (scale c * snd (snd b) - whole (snd (origin_px c)))).
Proof.
  intros S [[A B] [C D]]. unfold clip, c_rectangle. cbn [fst snd]. change whole with floor. set (oy := snd (origin_px c)). set (s := scale c) in *.
  assert (A' : s * fst (fst b) <= s * fst v) by (apply Rmult_le_compat_l; lra). assert (B' : s * fst v <= s * snd (fst b)) by (apply Rmult_le_compat_l; lra).
  assert (C' : s * fst (snd b) <= s * snd v) by (apply Rmult_le_compat_l; lra). assert (D' : s * snd v <= s * snd (snd b)) by (apply Rmult_le_compat_l; lra).
  pose proof (floor_bounds (s * fst (fst b))). pose proof (ceil_bounds (s * snd (fst b))). pose proof (floor_bounds (s * fst (snd b) - ceil oy)).
  pose proof (floor_bounds oy). pose proof (ceil_bounds oy).
  assert (M : floor (s * fst (snd b) - ceil oy) <= floor (s * snd (snd b) - floor oy)) by (apply floor_mono; lra).
  rewrite !Rabs_right by lra. split; [intros [_ [_ H']]; lra|]. intros H'. repeat split; lra.
Qed.
Section Exact.
Variables (fill : list curve -> shape) (b : rbox).
Hypothesis F : filling fill.
Definition flat_cut s inv (d : drawn) : bool * shape := (negb inv && dark d, remains fill s b d).
Lemma render_exact c d layer : fits b c -> fine fill (invert c) d -> exists img, render fill c d layer = Ok img /\
  forall p, inside b p -> (img (pixel (scale c) b (mirror c) p) <-> put p (layer (pixel (scale c) b (mirror c) p)) (flat_cut (scale c) (invert c) d)).
Proof.
  intros (S & Eo & Es) (En & Si & Ho). unfold render. destruct (mask_ok fill c (dark d) (what d) F S Si Ho) as (l & -> & E). cbn [bind]. eexists. split; [reflexivity|]. intros p I.
  assert (M : masked c (bbox d) (drawing l) (pixel (scale c) b (mirror c) p) <-> remains fill (scale c) b d p).
  { rewrite (masked_at c b) by assumption. rewrite E. unfold remains. split; intros [X Y]; (split; [exact X|]).
    - apply clip_exact in Y; [|exact S|apply En; exact X]. unfold rows, origin_px, scale_point in *. rewrite Eo in Y. cbn [fst snd] in Y. now rewrite (Rmult_comm (fst (snd b))) in Y.
    - apply clip_exact; [exact S|apply En; exact X|]. unfold rows, origin_px, scale_point in *. rewrite Eo. cbn [fst snd]. now rewrite (Rmult_comm (fst (snd b))). }
  unfold draw, layer_operator, put, flat_cut. cbn [fst snd]. destruct (negb (invert c) && dark d); now rewrite M.
Qed.
Lemma render_all_exact c ds : fits b c -> Forall (fine fill (invert c)) ds -> forall layer, exists img, render_all fill c ds layer = Ok img /\
  forall p, inside b p -> (img (pixel (scale c) b (mirror c) p) <-> puts p (map (flat_cut (scale c) (invert c)) ds) (layer (pixel (scale c) b (mirror c) p))).
Proof.
  intros Fi Fo. induction Fo as [|d ds Fd _ IH]; intro layer; [exists layer; split; [reflexivity|]; intros; reflexivity|].
  cbn [render_all]. destruct (render_exact c d layer Fi Fd) as (img & -> & E). cbn [bind]. destruct (IH img) as (img' & -> & E'). exists img'. split; [reflexivity|]. intros p I.
  rewrite E' by exact I. cbn [map]. unfold puts at 2. cbn [fold_left]. apply puts_iff. apply E. exact I.
Qed.
End Exact.
Lemma puts_cons p x l B : puts p (x :: l) B = puts p l (put p B x).
Proof. reflexivity. Qed.
Lemma puts_dark_exists {A} p (f : A -> shape) l B : puts p (map (fun x => (true, f x)) l) B <-> B \/ exists x, In x l /\ f x p.
Proof.
  revert B. induction l as [|x l IH]; intros B; [cbn; split; [auto|intros [H|(y & [] & _)]; exact H]|]. cbn [map]. rewrite puts_cons.
  rewrite IH. unfold put. cbn [fst snd]. split.
  - intros [[H|H]|(y & J & H)]; [now left|right; exists x; cbn; auto|right; exists y; cbn; auto].
  - intros [H|(y & [<-|J] & H)]; [auto|auto|right; exists y; auto].
Qed.
Lemma items_cut fill s b p l : Forall (renderable_item fill) l -> forall B, puts p (map (flat_cut fill b s false) (flat_map parts l)) B <-> puts p (map (item_remains fill s b) l) B.
Proof.
  induction 1 as [|i l R _ IH]; intro B; [reflexivity|]. cbn [flat_map map]. rewrite map_app, puts_app, IH. unfold puts at 3. cbn [fold_left]. fold (puts p (map (item_remains fill s b) l)). apply puts_iff.
  destruct i as [d|d ds]; [reflexivity|]. destruct R as [-> R]. cbn [parts item_remains]. unfold put. cbn [fst snd].
  assert (E : map (flat_cut fill b s false) ds = map (fun x => (true, remains fill s b x)) ds).
  { apply map_ext_in. intros x J. unfold flat_cut. rewrite Forall_forall in R. destruct (R x J) as [_ ->]. reflexivity. }
  rewrite E. apply puts_dark_exists.
Qed.
Lemma layer_exact fill b s mir l : filling fill -> 0 < s -> fst (fst b) <= snd (fst b) -> fst (snd b) <= snd (snd b) -> Forall (renderable_item fill) l ->
  exists img, render_layer fill (set_bounds s b false mir) l = Ok img /\
  forall p, inside b p -> (img (pixel s b mir p) <-> darkened (map (item_remains fill s b) l) p).
Proof.
  intros F S X Y R. unfold render_layer.
  destruct (render_all_exact fill b F (set_bounds s b false mir) (flat_map parts l) (context_fits' b s false mir S X Y)) with (layer := fun q => invert (set_bounds s b false mir) = true /\ on_surface (set_bounds s b false mir) q) as (img & E & H).
  - cbn [set_bounds invert]. apply Forall_flat_map. eapply Forall_impl; [|exact R]. intros [d|d ds]; cbn; [intro Q; constructor; [now apply renderable_fine|constructor]|].
    intros [_ Q]. eapply Forall_impl; [|exact Q]. intros x [Q' _]. now apply renderable_fine.
  - exists img. split; [exact E|]. intros p I. change s with (scale (set_bounds s b false mir)) at 1. change mir with (mirror (set_bounds s b false mir)) at 2. rewrite H by auto. cbn [set_bounds invert scale].
    rewrite <- puts_darkened. rewrite (items_cut fill s b p l R). apply puts_iff. split; [now intros [? _]|easy].
Qed.
Lemma puts_clear_exists {A} p (f : A -> shape) l B : puts p (map (fun x => (false, f x)) l) B <-> B /\ ~ exists x, In x l /\ f x p.
Proof.
  revert B. induction l as [|x l IH]; intros B; [cbn; split; [intros H; split; [exact H|intros (y & [] & _)]|tauto]|]. cbn [map]. rewrite puts_cons.
  rewrite IH. unfold put. cbn [fst snd]. split.
  - intros [[H N] N']. split; [exact H|]. intros (y & [<-|J] & K); [auto|apply N'; exists y; auto].
  - intros [H N]. split; [split; [exact H|]|]; [intros K; apply N; exists x; cbn; auto|intros (y & J & K); apply N; exists y; cbn; auto].
Qed.
Lemma inverted_exact fill b s mir l : filling fill -> 0 < s -> fst (fst b) <= snd (fst b) -> fst (snd b) <= snd (snd b) -> Forall (invertible_item fill) l ->
  exists img, render_layer fill (set_bounds s b true mir) l = Ok img /\
  forall p, inside b p -> (img (pixel s b mir p) <-> ~ darkened (map (item_remains fill s b) l) p).
Proof.
  intros F S X Y R. unfold render_layer.
  destruct (render_all_exact fill b F (set_bounds s b true mir) (flat_map parts l) (context_fits' b s true mir S X Y)) with (layer := fun q => invert (set_bounds s b true mir) = true /\ on_surface (set_bounds s b true mir) q) as (img & E & H).
  - cbn [set_bounds invert]. apply Forall_flat_map. eapply Forall_impl; [|exact R]. intros [d|d ds]; cbn; [intro Q; constructor; [now apply invertible_fine|constructor]|].
    intros [_ Q]. eapply Forall_impl; [|exact Q]. intros x Q'. now apply invertible_fine.
  - exists img. split; [exact E|]. intros p I. change s with (scale (set_bounds s b true mir)) at 1. change mir with (mirror (set_bounds s b true mir)) at 2. rewrite H by auto. cbn [set_bounds invert scale mirror].
    assert (E1 : map (flat_cut fill b s true) (flat_map parts l) = map (fun x => (false, remains fill s b x)) (flat_map parts l)) by reflexivity.
    rewrite E1, puts_clear_exists.
    assert (A : Forall (renderable_item fill) l).
    { eapply Forall_impl; [|exact R]. intros [d|d ds]; cbn.
      - intros (E2 & E3 & E4 & E5). split; [exact E2|]. split; [exact E3|]. now left.
      - intros [-> Q]. split; [reflexivity|]. eapply Forall_impl; [|exact Q]. intros x (E2 & E3 & E4 & E5). split; [|exact E4]. split; [exact E2|]. split; [exact E3|]. now left. }
    rewrite <- puts_darkened, <- (items_cut fill s b p l A).
    assert (D : Forall (fun d => dark d = true) (flat_map parts l)).
    { apply Forall_flat_map. eapply Forall_impl; [|exact R]. intros [d|d ds]; cbn; [intros (_ & _ & Q & _); constructor; [exact Q|constructor]|]. intros [_ Q]. eapply Forall_impl; [|exact Q]. now intros x (_ & _ & Q' & _). }
    assert (E2 : map (flat_cut fill b s false) (flat_map parts l) = map (fun x => (true, remains fill s b x)) (flat_map parts l)).
    { apply map_ext_in. intros x J. unfold flat_cut. rewrite Forall_forall in D. now rewrite (D x J). }
    rewrite E2, puts_dark_exists. pose proof (on_surface_at s b mir p S I) as On. split.
    + intros [_ N] [[]|K]. exact (N K).
    + intros N. split; [split; [reflexivity|exact On]|]. intros K. apply N. now right.
Qed.
(** *)
Lemma whole_int n : whole (IZR n) = IZR n.
Proof.
  pose proof (floor_bounds (IZR n)) as [A B]. unfold floor in *. unfold whole. apply le_IZR in A. rewrite <- plus_IZR in B. apply lt_IZR in B. f_equal. lia.
Qed.
Lemma cut_aligned fill s b d : encloses (bbox d) (prim_shape fill (what d)) -> 0 < s -> (exists n, s * fst (snd b) = IZR n) -> (exists n, s * snd (snd (bbox d)) = IZR n) ->
  forall p, remains fill s b d p <-> prim_shape fill (what d) p.
Proof.
  intros En S (n & N) (m & M) p. unfold remains, rows. rewrite M, N, whole_int, <- minus_IZR, whole_int, minus_IZR. split; [now intros []|]. intros H. split; [exact H|].
  destruct (En p H) as [_ [_ D]]. pose proof (Rmult_le_compat_l s _ _ (Rlt_le _ _ S) D). lra.
Qed.
Lemma puts_ext {A} p (f g : A -> bool * shape) l : (forall x, In x l -> fst (f x) = fst (g x) /\ (snd (f x) p <-> snd (g x) p)) -> forall B, puts p (map f l) B <-> puts p (map g l) B.
Proof.
  induction l as [|x l IH]; intros H B; [reflexivity|]. cbn [map]. rewrite !puts_cons. rewrite (IH (fun y J => H y (or_intror J))). apply puts_iff.
  destruct (H x (or_introl eq_refl)) as [E1 E2]. unfold put. rewrite E1. destruct (fst (g x)); now rewrite E2.
Qed.
Lemma layer_aligned fill b s mir l : filling fill -> 0 < s -> fst (fst b) <= snd (fst b) -> fst (snd b) <= snd (snd b) -> Forall (renderable_item fill) l -> aligned s b l ->
  exists img, render_layer fill (set_bounds s b false mir) l = Ok img /\
  forall p, inside b p -> (img (pixel s b mir p) <-> layer_shows fill l p).
Proof.
  intros F S X Y R [Lo Up]. destruct (layer_exact fill b s mir l F S X Y R) as (img & E & H). exists img. split; [exact E|]. intros p I. rewrite (H p I). unfold layer_shows.
  rewrite <- !puts_darkened. apply puts_ext. intros i J. rewrite Forall_forall in R. specialize (R i J). destruct i as [d|d ds]; cbn [item_remains item_shape fst snd] in *.
  - split; [reflexivity|]. apply cut_aligned; [exact (proj1 R)|exact S|exact Lo|]. apply Up. apply in_flat_map. exists (Single d). split; [exact J|now left].
  - split; [reflexivity|]. destruct R as [-> R]. rewrite Forall_forall in R.
    assert (Q : map (drawn_shape fill) ds = map (fun x => (true, prim_shape fill (what x))) ds) by (apply map_ext_in; intros x K; unfold drawn_shape; now rewrite (proj2 (R x K))).
    rewrite Q, <- puts_darkened, puts_dark_exists.
    assert (C : forall x, In x ds -> (remains fill s b x p <-> prim_shape fill (what x) p)).
    { intros x K. apply cut_aligned; [exact (proj1 (proj1 (R x K)))|exact S|exact Lo|]. apply Up. apply in_flat_map. exists (Group true ds). split; [exact J|exact K]. }
    split; [intros (x & K & L); right; exists x; split; [exact K|exact (proj1 (C x K) L)]|intros [[]|(x & K & L)]; exists x; split; [exact K|exact (proj2 (C x K) L)]].
Qed.
