(** Images of converted and rewritten drill files. *)
From Coq Require Import Lra Lia Qreals.
From Verif Require Import PyBase QcLib GeomModel GeomSpec GeomProofs CairoModel CairoSpec CairoProofs CairoLayer CairoMore CairoScale MacroGeomModel MacroGeomProofs ShowModel ShowSpec ShowFile ShowMacro CamShowModel CamShowSpec CamShowProofs CamShowDrill ShowExamples SimilarSpec SimilarProofs SimilarFile SimilarExact DrillShowModel DrillShowSpec DrillShowProofs.
From Verif Require Import GerberText.
From Verif Require ExcellonModel ExcellonFile ExcellonSpec ExcellonMore.
From Coq Require Import Permutation.
Import ListNotations.
Open Scope R_scope.
Open Scope list_scope.

(** ** Rewritten files *)
(** What is drawn for a hole depends on its tool's diameter and its position. *)
Lemma viewed_item s s' h h' v : ExcellonSpec.hole_view s h = Some v -> ExcellonSpec.hole_view s' h' = Some v -> drill_item s h = drill_item s' h' /\ forall p, cut s h p <-> cut s' h' p.
Proof.
  intros V V'. unfold ExcellonSpec.hole_view in V, V'. destruct h as [o c|]; [|discriminate]. destruct h' as [o' c'|]; [|discriminate].
  destruct (ExcellonSpec.tool_of s _) as [t|] eqn:Ht; [|discriminate]. destruct (ExcellonSpec.tool_of s' _) as [t'|] eqn:Ht'; [|discriminate]. injection V as <-. injection V' as V1 V2 V3.
  assert (A : forall s h t, ExcellonSpec.tool_of s h = Some t -> ExcellonFile.tool_at s (ExcellonFile.hit_tool h) = Ok t).
  { intros s0 h t0 H. destruct (ExcellonMore.tool_at_of s0 h) as (t1 & A & B); [congruence|]. rewrite H in A. injection A as <-. exact B. }
  split.
  - unfold drill_item. rewrite (A _ _ _ Ht), (A _ _ _ Ht'). cbn [bind]. rewrite V2, V3. reflexivity.
  - intro p. unfold cut. rewrite Ht, Ht'. subst c'. split; intros (t0 & d & E & Ed & C); injection E as <-; [exists t', d|exists t, d]; (split; [reflexivity|]); (split; [congruence|exact C]).
Qed.
Definition same_views (f f' : ExcellonModel.xfile) : Prop := forall v, (exists h, In h (ExcellonModel.xf_hits f) /\ ExcellonSpec.hole_view (ExcellonModel.xf_store f) h = Some v) <->
  (exists h, In h (ExcellonModel.xf_hits f') /\ ExcellonSpec.hole_view (ExcellonModel.xf_store f') h = Some v).
Definition only_holes (f : ExcellonModel.xfile) : Prop := forall h, In h (ExcellonModel.xf_hits f) -> ExcellonSpec.hole_view (ExcellonModel.xf_store f) h <> None.
Lemma viewed_match f f' h : only_holes f -> same_views f f' -> In h (ExcellonModel.xf_hits f) ->
  exists h', In h' (ExcellonModel.xf_hits f') /\ drill_item (ExcellonModel.xf_store f) h = drill_item (ExcellonModel.xf_store f') h' /\ forall p, cut (ExcellonModel.xf_store f) h p <-> cut (ExcellonModel.xf_store f') h' p.
Proof.
  intros O V J. destruct (ExcellonSpec.hole_view (ExcellonModel.xf_store f) h) as [v|] eqn:E; [|now destruct (O h J)]. destruct (proj1 (V v) (ex_intro _ h (conj J E))) as (h' & J' & E').
  exists h'. split; [exact J'|]. exact (viewed_item _ _ _ _ v E E').
Qed.
Lemma viewed_drills f f' : only_holes f -> only_holes f' -> same_views f f' -> drills f -> drills f'.
Proof.
  intros O O' V [C D]. assert (V' : same_views f' f) by (intro v; symmetry; apply V). split.
  - intros h J. specialize (O' h J). unfold ExcellonSpec.hole_view in O'. destruct h as [o c|]; [|now destruct O']. destruct (ExcellonSpec.tool_of _ _) as [t|]; [|now destruct O']. split; [discriminate|exact I].
  - intros h t J Ht. destruct (ExcellonSpec.hole_view (ExcellonModel.xf_store f') h) as [v|] eqn:E; [|now destruct (O' h J)]. destruct (proj2 (V v) (ex_intro _ h (conj J E))) as (h0 & J0 & E0).
    unfold ExcellonSpec.hole_view in E, E0. destruct h as [o c|]; [|discriminate]. rewrite Ht in E. injection E as <-. destruct h0 as [o0 c0|]; [|discriminate].
    destruct (ExcellonSpec.tool_of (ExcellonModel.xf_store f) _) as [t0|] eqn:Ht0; [|discriminate]. injection E0 as _ E0 _. rewrite <- E0. exact (D _ t0 J0 Ht0).
Qed.
Lemma viewed_image fill f f' s b : filling fill -> only_holes f -> only_holes f' -> same_views f f' -> drills f -> 0 < s -> bounds b (cuts f) -> within 100000000000 b ->
  exists img img', render_drills fill s false f = Ok img /\ render_drills fill s false f' = Ok img' /\ forall q, img' q <-> img q.
Proof.
  intros Fi O O' V D S B W. assert (V' : same_views f' f) by (intro v; symmetry; apply V). pose proof (viewed_drills f f' O O' V D) as D'.
  assert (B' : bounds b (cuts f')).
  { eapply bounds_ext; [|exact B]. intro p. unfold cuts. split; intros (h & J & C).
    - destruct (viewed_match f f' h O V J) as (h' & J' & _ & E). exists h'. split; [exact J'|]. now apply E.
    - destruct (viewed_match f' f h O' V' J) as (h' & J' & _ & E). exists h'. split; [exact J'|]. now apply E. }
  destruct (drills_exact fill f s b Fi D S B W) as (img & R & _ & H). destruct (drills_exact fill f' s b Fi D' S B' W) as (img' & R' & _ & H'). exists img, img'. split; [exact R|]. split; [exact R'|].
  intro q. rewrite H, H'. unfold drilled_pixel. split; intros (h & x & J & E & M).
  - destruct (viewed_match f' f h O' V' J) as (h' & J' & Ei & _). exists h', x. split; [exact J'|]. split; [congruence|exact M].
  - destruct (viewed_match f f' h O V J) as (h' & J' & Ei & _). exists h', x. split; [exact J'|]. split; [congruence|exact M].
Qed.
Lemma rewritten_image holesize fill s b f i d locs : NumSpec.usable_format i d -> ExcellonModel.xs_format (ExcellonModel.xf_set f) = (i, d) -> ExcellonModel.xs_notation (ExcellonModel.xf_set f) = ExcellonModel.Absolute ->
  ExcellonSpec.plain_header f locs -> ExcellonSpec.same_units f -> Permutation locs (map snd (ExcellonModel.xf_tools f)) -> NoDup (map fst (ExcellonModel.xf_tools f)) ->
  (forall n l, In (n, l) (ExcellonModel.xf_tools f) -> exists t, nth_error (ExcellonModel.xf_store f) l = Some t /\ ExcellonModel.t_num t = n /\ ExcellonSpec.writable_tool i d t) ->
  Forall (ExcellonSpec.drill_hit f i d) (ExcellonModel.xf_hits f) ->
  filling fill -> drills f -> 0 < s -> bounds b (cuts f) -> within 100000000000 b ->
  exists t f' img img', ExcellonFile.write_file f = Ok t /\ ExcellonModel.parse_raw holesize (ExcellonModel.xf_set f) [] t = Ok f' /\
    render_drills fill s false f = Ok img /\ render_drills fill s false f' = Ok img' /\ forall q, img' q <-> img q.
Proof.
  intros U F NA PH SU PM ND TK HH Fi D S B W. destruct (ExcellonMore.C41_lemma holesize f i d locs U F NA PH SU PM ND TK HH) as (t & f' & Wr & P & _ & NS & V).
  assert (O : only_holes f).
  { intros h J. rewrite Forall_forall in HH. destruct (HH h J) as (n & l & x & y & -> & Jt & _). destruct (TK n l Jt) as (t0 & E & _). cbn [ExcellonSpec.hole_view ExcellonSpec.tool_of]. rewrite E. discriminate. }
  assert (SV : same_views f f').
  { intro v. assert (X : forall g, (exists h, In h (ExcellonModel.xf_hits g) /\ ExcellonSpec.hole_view (ExcellonModel.xf_store g) h = Some v) <->
      In (Some v) (filter (ExcellonSpec.by_tool (fst (fst v))) (map (ExcellonSpec.hole_view (ExcellonModel.xf_store g)) (ExcellonModel.xf_hits g)))).
    { intro g. rewrite filter_In, in_map_iff. split.
      - intros (h & J & E). split; [exists h; auto|]. destruct v as [[n w] q]. cbn [ExcellonSpec.by_tool fst]. apply Z.eqb_refl.
      - intros [(h & E & J) _]. exists h. auto. }
    rewrite !X, V. reflexivity. }
  destruct (viewed_image fill f f' s b Fi O NS SV D S B W) as (img & img' & R & R' & H). exists t, f', img, img'. auto.
Qed.
