(** Lemmas about whole layers. *)
From Coq Require Import Lra Lia Psatz Bool Classical.
From Verif Require Import PyBase GeomProofs CairoSpec CairoProofs.
Import ListNotations.
Open Scope R_scope.
Open Scope list_scope.

Definition put (p : pt) (B : Prop) (x : bool * shape) : Prop := if fst x then B \/ snd x p else B /\ ~ snd x p.
Definition puts (p : pt) (l : list (bool * shape)) (B : Prop) : Prop := fold_left (put p) l B.
Lemma darkened_dark l s p : darkened (l ++ [(true, s)]) p <-> darkened l p \/ s p.
Proof.
  split.
  - intros (l1 & s' & l2 & E & S & N). destruct (exists_last (l := (true, s') :: l2)) as (m & x & M); [discriminate|]. rewrite M, app_assoc in E. apply app_inj_tail in E as [-> <-].
    destruct m as [|y m]; cbn in M; [injection M as -> _; now right|]. injection M as <- ->. left. exists l1, s', m. split; [reflexivity|]. split; [exact S|]. intros t I. apply N. apply in_or_app. now left.
  - intros [(l1 & s' & l2 & -> & S & N)|S].
    + exists l1, s', (l2 ++ [(true, s)]). rewrite <- app_assoc. split; [reflexivity|]. split; [exact S|]. intros t I. apply in_app_or in I as [I|[I|[]]]; [now apply N|discriminate].
    + exists l, s, []. split; [reflexivity|]. split; [exact S|]. easy.
Qed.
Lemma darkened_clear l s p : darkened (l ++ [(false, s)]) p <-> darkened l p /\ ~ s p.
Proof.
  split.
  - intros (l1 & s' & l2 & E & S & N). destruct (exists_last (l := (true, s') :: l2)) as (m & x & M); [discriminate|]. rewrite M, app_assoc in E. apply app_inj_tail in E as [-> <-].
    destruct m as [|y m]; cbn in M; [discriminate|]. injection M as <- ->. split.
    + exists l1, s', m. split; [reflexivity|]. split; [exact S|]. intros t I. apply N. apply in_or_app. now left.
    + apply N. apply in_or_app. right. now left.
  - intros [(l1 & s' & l2 & -> & S & N) M]. exists l1, s', (l2 ++ [(false, s)]). rewrite <- app_assoc. split; [reflexivity|]. split; [exact S|].
    intros t I. apply in_app_or in I as [I|[I|[]]]; [now apply N|]. now injection I as <-.
Qed.
Lemma darkened_nil p : ~ darkened [] p.
Proof. intros (l1 & s & l2 & E & _). destruct l1; discriminate. Qed.
Lemma puts_app p l m B : puts p (l ++ m) B = puts p m (puts p l B).
Proof. unfold puts. apply fold_left_app. Qed.
Lemma puts_darkened p l : puts p l False <-> darkened l p.
Proof.
  induction l as [|[d s] l IH] using rev_ind; [cbn; split; [easy|apply darkened_nil]|]. rewrite puts_app. unfold puts at 1. cbn [fold_left]. unfold put. cbn [fst snd].
  destruct d; [rewrite darkened_dark|rewrite darkened_clear]; now rewrite IH.
Qed.
Lemma puts_iff p l : forall B B', (B <-> B') -> (puts p l B <-> puts p l B').
Proof. induction l as [|x l IH]; intros B B' E; [exact E|]. cbn. apply IH. unfold put. destruct (fst x); now rewrite E. Qed.
Lemma puts_dark p l : Forall (fun x => fst x = true) l -> forall B, puts p l B <-> B \/ darkened l p.
Proof.
  intro F. induction l as [|[d s] l IH] using rev_ind; intro B; [cbn; split; [now left|intros [|D]; [assumption|now apply darkened_nil in D]]|].
  apply Forall_app in F as [F1 F2]. inversion F2 as [|? ? D _]; subst. cbn in D. subst d. rewrite puts_app, darkened_dark. unfold puts at 1. cbn [fold_left]. unfold put. cbn [fst snd]. rewrite (IH F1). tauto.
Qed.
Lemma puts_clear p l : Forall (fun x => fst x = false) l -> forall B, puts p l B <-> B /\ forall s, In (false, s) l -> ~ s p.
Proof.
  induction 1 as [|[d s] l D _ IH]; intro B; [cbn; tauto|]. cbn in D. subst d. change (puts p ((false, s) :: l) B) with (puts p l (B /\ ~ s p)). rewrite IH. split.
  - intros [[H1 H2] H3]. split; [exact H1|]. intros t [E|I]; [now injection E as <-|now apply H3].
  - intros [H1 H2]. split; [split; [exact H1|]|]; [apply H2; now left|]. intros t I. apply H2. now right.
Qed.

Definition flat_shape fill inv (d : drawn) : bool * shape := (negb inv && dark d, prim_shape fill (what d)).
Section Layer.
Variables (fill : list curve -> shape) (b : rbox).
Hypothesis F : filling fill.
Definition fits (c : context) : Prop := 0 < scale c /\ origin c = (fst (fst b), fst (snd b)) /\ size c = (snd (fst b) - fst (fst b), snd (snd b) - fst (snd b)).
Definition fine inv (d : drawn) : Prop := encloses (bbox d) (prim_shape fill (what d)) /\ simple (what d) /\ clear_holes inv (dark d) (what d).
Lemma render_ok c d layer : fits c -> fine (invert c) d -> exists img, render fill c d layer = Ok img /\
  forall p, inside b p -> (prim_shape fill (what d) p -> scale c * snd p <= scale c * snd (snd (bbox d)) - 1) ->
    (img (pixel (scale c) b (mirror c) p) <-> put p (layer (pixel (scale c) b (mirror c) p)) (flat_shape fill (invert c) d)).
Proof.
  intros (S & Eo & Es) (En & Si & Ho). unfold render. destruct (mask_ok fill c (dark d) (what d) F S Si Ho) as (l & -> & E). cbn [bind]. eexists. split; [reflexivity|]. intros p I T.
  assert (M : masked c (bbox d) (drawing l) (pixel (scale c) b (mirror c) p) <-> prim_shape fill (what d) p).
  { rewrite (masked_at c b) by assumption. rewrite E. split; [now intros [X _]|]. intro X. split; [exact X|]. apply clip_covers; auto. }
  unfold draw, layer_operator, put, flat_shape. cbn [fst snd]. destruct (negb (invert c) && dark d); now rewrite M.
Qed.
Lemma render_all_ok c ds : fits c -> Forall (fine (invert c)) ds -> forall layer, exists img, render_all fill c ds layer = Ok img /\
  forall p, inside b p -> (forall d, In d ds -> prim_shape fill (what d) p -> scale c * snd p <= scale c * snd (snd (bbox d)) - 1) ->
    (img (pixel (scale c) b (mirror c) p) <-> puts p (map (flat_shape fill (invert c)) ds) (layer (pixel (scale c) b (mirror c) p))).
Proof.
  intros Fi Fo. induction Fo as [|d ds Fd _ IH]; intro layer; [exists layer; split; [reflexivity|]; intros; reflexivity|].
  cbn [render_all]. destruct (render_ok c d layer Fi Fd) as (img & -> & E). cbn [bind]. destruct (IH img) as (img' & -> & E'). exists img'. split; [reflexivity|]. intros p I T.
  rewrite E' by (auto; intros; apply T; auto; now right). cbn [map]. unfold puts at 2. cbn [fold_left]. apply puts_iff. apply E; [exact I|]. apply T. now left.
Qed.
End Layer.

Lemma context_fits b s inv mir p : 0 < s -> inside b p -> fits b (set_bounds s b inv mir).
Proof. intros S [[A B] [C D]]. unfold fits, set_bounds. cbn. rewrite !Rabs_right by lra. auto. Qed.
Lemma context_fits' b s inv mir : 0 < s -> fst (fst b) <= snd (fst b) -> fst (snd b) <= snd (snd b) -> fits b (set_bounds s b inv mir).
Proof. intros. unfold fits, set_bounds. cbn. rewrite !Rabs_right by lra. auto. Qed.
Lemma renderable_fine fill d : renderable fill d -> fine fill false d.
Proof.
  intros (E & S & H). split; [exact E|]. split; [exact S|]. destruct (what d); cbn in *; auto; destruct H as [H|H]; auto.
Qed.
Lemma invertible_fine fill d : invertible fill d -> fine fill true d.
Proof. intros (E & S & D & H). split; [exact E|]. split; [exact S|]. destruct (what d); cbn in *; auto. Qed.
Lemma items_puts fill p l : Forall (renderable_item fill) l -> forall B, puts p (map (flat_shape fill false) (flat_map parts l)) B <-> puts p (map (item_shape fill) l) B.
Proof.
  induction 1 as [|i l R _ IH]; intro B; [reflexivity|]. cbn [flat_map map]. rewrite map_app, puts_app, IH. unfold puts at 3. cbn [fold_left]. fold (puts p (map (item_shape fill) l)). apply puts_iff.
  destruct i as [d|d ds]; [reflexivity|]. destruct R as [-> R]. cbn [parts item_shape]. unfold put. cbn [fst snd].
  assert (E : map (flat_shape fill false) ds = map (drawn_shape fill) ds) by reflexivity. rewrite E. apply puts_dark.
  apply Forall_map. eapply Forall_impl; [|exact R]. now intros x [_ H].
Qed.
Lemma layer_ok fill b s mir l : filling fill -> 0 < s -> fst (fst b) <= snd (fst b) -> fst (snd b) <= snd (snd b) -> Forall (renderable_item fill) l ->
  exists img, render_layer fill (set_bounds s b false mir) l = Ok img /\
  forall p, inside b p -> below_top fill s l p -> (img (pixel s b mir p) <-> layer_shows fill l p).
Proof.
  intros F S X Y R. unfold render_layer.
  destruct (render_all_ok fill b F (set_bounds s b false mir) (flat_map parts l) (context_fits' b s false mir S X Y)) with (layer := fun q => invert (set_bounds s b false mir) = true /\ on_surface (set_bounds s b false mir) q) as (img & E & H).
  - cbn [set_bounds invert]. apply Forall_flat_map. eapply Forall_impl; [|exact R]. intros [d|d ds]; cbn; [intro Q; constructor; [now apply renderable_fine|constructor]|].
    intros [_ Q]. eapply Forall_impl; [|exact Q]. intros x [Q' _]. now apply renderable_fine.
  - exists img. split; [exact E|]. intros p I T. change s with (scale (set_bounds s b false mir)) at 1. change mir with (mirror (set_bounds s b false mir)) at 2. rewrite H by auto. cbn [set_bounds invert].
    unfold layer_shows. rewrite <- puts_darkened. rewrite (items_puts fill p l R). apply puts_iff. split; [now intros [? _]|easy].
Qed.
Lemma inverted_ok fill b s mir l : filling fill -> 0 < s -> fst (fst b) <= snd (fst b) -> fst (snd b) <= snd (snd b) -> Forall (invertible_item fill) l ->
  exists img, render_layer fill (set_bounds s b true mir) l = Ok img /\
  forall p, inside b p -> below_top fill s l p -> (img (pixel s b mir p) <-> ~ layer_shows fill l p).
Proof.
  intros F S X Y R. unfold render_layer.
  destruct (render_all_ok fill b F (set_bounds s b true mir) (flat_map parts l) (context_fits' b s true mir S X Y)) with (layer := fun q => invert (set_bounds s b true mir) = true /\ on_surface (set_bounds s b true mir) q) as (img & E & H).
  - cbn [set_bounds invert]. apply Forall_flat_map. eapply Forall_impl; [|exact R]. intros [d|d ds]; cbn; [intro Q; constructor; [now apply invertible_fine|constructor]|].
    intros [_ Q]. eapply Forall_impl; [|exact Q]. intros x Q'. now apply invertible_fine.
  - exists img. split; [exact E|]. intros p I T. change s with (scale (set_bounds s b true mir)) at 1. change mir with (mirror (set_bounds s b true mir)) at 2. rewrite H by auto. cbn [set_bounds invert scale mirror].
    rewrite puts_clear by (apply Forall_map, Forall_forall; reflexivity).
    assert (On : on_surface (mkContext s (fst (fst b), fst (snd b)) (Rabs (snd (fst b) - fst (fst b)), Rabs (snd (snd b) - fst (snd b))) true mir) (pixel s b mir p)) by exact (on_surface_at s b mir p S I).
    assert (A : Forall (renderable_item fill) l).
    { eapply Forall_impl; [|exact R]. intros [d|d ds]; cbn.
      - intros (E1 & E2 & E3 & E4). split; [exact E1|]. split; [exact E2|]. now left.
      - intros [-> Q]. split; [reflexivity|]. eapply Forall_impl; [|exact Q]. intros x (E1 & E2 & E3 & E4). split; [|exact E3]. split; [exact E1|]. split; [exact E2|]. now left. }
    unfold layer_shows. rewrite <- puts_darkened, <- (items_puts fill p l A).
    assert (D : Forall (fun d => dark d = true) (flat_map parts l)).
    { apply Forall_flat_map. eapply Forall_impl; [|exact R]. intros [d|d ds]; cbn; [intros (_ & _ & Q & _); constructor; [exact Q|constructor]|]. intros [_ Q]. eapply Forall_impl; [|exact Q]. now intros x (_ & _ & Q' & _). }
    rewrite puts_dark by (apply Forall_map; eapply Forall_impl; [|exact D]; now intros x Hx). split.
    + intros [_ N] [[]|(l1 & t & l2 & E2 & St & _)]. assert (In (true, t) (map (flat_shape fill false) (flat_map parts l))) as J by (rewrite E2; apply in_or_app; right; now left).
      apply in_map_iff in J as (d & Ed & Id). injection Ed as Ed1 Ed2. apply (N (prim_shape fill (what d))); [apply in_map_iff; exists d; split; [reflexivity|exact Id]|]. now rewrite Ed2.
    + intro N. split; [split; [reflexivity|exact On]|]. intros t J St. apply N. right. apply in_map_iff in J as (d & Ed & Id). injection Ed as Ed. subst t.
      apply in_split in Id as (m1 & m2 & Em). rewrite Em, map_app. exists (map (flat_shape fill false) m1), (prim_shape fill (what d)), (map (flat_shape fill false) m2). split.
      * cbn [map]. f_equal. f_equal. unfold flat_shape. f_equal. cbn. rewrite Forall_forall in D. apply D. rewrite Em. apply in_or_app. right. now left.
      * split; [exact St|]. intros s' I' _. apply in_map_iff in I' as (d' & Ed' & Id'). injection Ed' as Ed' _. rewrite Forall_forall in D. rewrite D in Ed'; [discriminate|]. rewrite Em. apply in_or_app. right. now right.
Qed.
