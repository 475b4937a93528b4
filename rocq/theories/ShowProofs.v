(** Images of Gerber files. *)
From Coq Require Import Lra Lia.
From Verif Require Import PyBase QcLib GeomModel GeomSpec GeomProofs HullModel HullSpec HullProofs CairoModel CairoSpec CairoProofs CairoLayer CairoMore CairoScale MacroGeomModel MacroGeomSpec ShowModel ShowSpec ShowMacro.
From Verif Require Import GerberText.
From Verif Require GerberEval GerberEvalSpec GerberEvalProofs.
Import ListNotations GerberEvalSpec.
Open Scope R_scope.
Open Scope list_scope.

(** ** Segments *)
Definition cseg (v : vseg) : seg :=
  match v with
  | VLine a b _ _ _ => SLine (real_pt a) (real_pt b)
  | VArc a b (Some c) d _ q _ _ => SArc (the_arc a b c d q)
  | VArc a b None _ _ _ _ _ => SLine (real_pt a) (real_pt b)
  end.
Lemma view_seg_ok h s : fair_seg (deref_seg h s) -> view_seg s = Ok (cseg (deref_seg h s)).
Proof. destruct s as [|a b [c|] d ap q pol u]; cbn; [reflexivity|reflexivity|contradiction]. Qed.
Lemma view_segs_ok h l : Forall fair_seg (map (deref_seg h) l) -> mapM view_seg l = Ok (map cseg (map (deref_seg h) l)).
Proof.
  induction l as [|s l IH]; intro F; [reflexivity|]. inversion F; subst. cbn [mapM map]. rewrite (view_seg_ok h s) by assumption. cbn [bind]. rewrite IH by assumption. reflexivity.
Qed.
Lemma goes_is v f : fair_seg v -> seg_is (cseg v) f <-> goes v f.
Proof.
  destruct v as [|a b [c|] d ap q pol u]; cbn; [tauto| |contradiction]. intros _. destruct d; reflexivity.
Qed.
Lemma outline_is l : Forall fair_seg l -> forall cs, Forall2 seg_is (map cseg l) cs <-> Forall2 goes l cs.
Proof.
  induction 1 as [|v l V F IH]; intro cs; cbn [map].
  - split; intro J; inversion J; constructor.
  - split; intro J; inversion J; subst; constructor; try (apply goes_is; assumption); apply IH; assumption.
Qed.
Lemma follows_connected : forall l a b, follows a l b -> Forall fair_seg l -> connected (real_pt a) (map cseg l) (real_pt b).
Proof.
  induction l as [|v l IH]; intros a b F S; cbn [follows map connected] in *; [now subst|]. destruct F as [<- F]. inversion S; subst.
  destruct v as [|a0 b0 [c|] d ap q pol u]; cbn in *; [split; [reflexivity|now apply IH]| |contradiction].
  split; [reflexivity|now apply IH].
Qed.
(** The points of a segment. *)
Definition seg_shape (s : seg) : shape := match s with SLine a b => segment a b | SArc a => on_arc a end.
Lemma fair_arc_bounds a : fair_arc a -> bounds (arc_box0 a) (on_arc a).
Proof.
  intros [(r & f & l & A & L) Q]. destruct (a_quad a) eqn:E.
  - destruct Q as [Q|Q]; [discriminate|]. now apply quadrant_bounds.
  - now apply (arc0_bounds a r f l).
Qed.
Lemma seg_bounds v : fair_seg v -> bounds (seg_box (cseg v)) (seg_shape (cseg v)).
Proof.
  destruct v as [|a b [c|] d ap q pol u]; cbn [fair_seg cseg seg_box seg_shape]; [|apply fair_arc_bounds|contradiction].
  intros _. apply segment_bounds.
Qed.
Lemma goes_points v f t : fair_seg v -> goes v f -> 0 <= t <= 1 -> seg_shape (cseg v) (f t).
Proof.
  destruct v as [|a b [c|] d ap q pol u]; cbn [fair_seg goes cseg seg_shape]; [| |contradiction].
  - intros _ -> T. exists t. split; [exact T|reflexivity].
  - intros _ (r & g & l & A & ->) T. exists r, g, l, (t * l). split; [exact A|]. destruct A as (_ & L & _). split; [nra|].
    unfold curved. cbn [the_arc a_center a_dir]. unfold turning. destruct d; f_equal; ring.
Qed.
Lemma contour_inside l cs b : Forall fair_seg l -> Forall2 goes l cs -> boxes_box (map seg_box (map cseg l)) = Some b -> encloses b (traced cs).
Proof.
  intros S G B. assert (F : Forall2 bounds (map seg_box (map cseg l)) (map seg_shape (map cseg l))).
  { clear - S. induction S; cbn [map]; constructor; auto. now apply seg_bounds. }
  destruct (boxes_bounds _ _ _ F B) as [E _]. intros p (f & t & J & T & ->). apply E.
  clear - S G J T. revert S. induction G as [|v g l cs V G IH]; intro S; [destruct J|]. inversion S; subst. destruct J as [<-|J].
  - exists (seg_shape (cseg v)). split; [now left|now apply goes_points].
  - destruct (IH J) as (s & I & P); [assumption|]. exists s. split; [now right|exact P].
Qed.

(** ** One primitive *)
Section Show.
Variable fill : list curve -> shape.
Hypothesis Se : sensible fill.

Definition faithful (d : drawn) (m : mark) : Prop :=
  dark d = dark_mark m /\ renderable fill d /\ forall q, prim_shape fill (what d) q <-> covers fill m q.
Lemma with_holes_iff c rot hd hw hh (s t : shape) q : (s q <-> t q) -> with_holes fill c rot hd hw hh s q <-> with_holes fill c rot hd hw hh t q.
Proof. unfold with_holes, without. tauto. Qed.
Lemma with_holes_inside b c rot hd hw hh s : encloses b s -> encloses b (with_holes fill c rot hd hw hh s).
Proof. intros E p [[P _] _]. now apply E. Qed.

Lemma view_line_ok pol a b o u : line_pen o -> exists d, view_line (is_dark pol) (real_pt a) (real_pt b) o = Ok (Single d) /\ faithful d (Stroke (VLine a b (Some o) pol u)).
Proof.
  unfold line_pen, view_line. destruct (GerberEval.o_shape o) as [d hd hw hh|w h hd hw hh| | |] eqn:E; try contradiction.
  - intros [D _]. eexists. split; [reflexivity|]. split; [reflexivity|]. cbn [covers pen]. rewrite E. cbn [what prim_shape]. split; [|reflexivity].
    split; [|split; [exact D|right; exact I]]; cbn [bbox what prim_shape].
    apply line_round_bounds. lra.
  - intros (W & H & _). destruct (line_sweep (real_pt a) (real_pt b) (real w) (real h) W H) as (vs & V & Hu & R). rewrite V. cbn [bind].
    eexists. split; [reflexivity|]. split; [reflexivity|]. cbn [covers pen]. rewrite E. cbn [what prim_shape].
    assert (Q : forall q, fill (CairoSpec.sides vs) q <-> stroke (segment (real_pt a) (real_pt b)) (oblong (real w) (real h)) q).
    { intro q. rewrite (s_convex _ Se _ _ Hu q). symmetry. apply R. }
    split; [|exact Q]. split; [|split; [|right; exact I]]; cbn [bbox what prim_shape simple].
    + intros p P. apply Q in P. revert p P. apply line_rect_bounds; lra.
    + intro N. subst vs. destruct (hull_covers _ _ Hu (0, 0) (0, 0)) as (c & [] & _). intros u0 v0 [].
Qed.
Lemma view_arc_ok pol a b c d o q u : arc_pen o -> fair_arc (the_arc a b c d q) ->
  exists x, view_arc (is_dark pol) (arc_of a b c d q) o = Ok (Single x) /\ faithful x (Stroke (VArc a b (Some c) d (Some o) q pol u)).
Proof.
  unfold arc_pen, view_arc. destruct (GerberEval.o_shape o) as [w hd hw hh| | | |] eqn:E; try contradiction. intros [D _] A.
  eexists. split; [reflexivity|]. split; [reflexivity|]. cbn [covers pen]. rewrite E. cbn [what prim_shape]. change (arc_of a b c d q) with (the_arc a b c d q). split; [|reflexivity].
  split; [|split; [split; [exact D|exact (proj1 A)]|right; exact I]]. cbn [bbox what prim_shape]. unfold arc_box. rewrite grow_sum.
  apply stroke_bounds; [now apply fair_arc_bounds|]. apply (disc_bounds (0, 0) (real w / 2)). lra.
Qed.
Lemma view_region_ok pol h l u : (exists v l', map (deref_seg h) l = v :: l' /\ follows (from v) (map (deref_seg h) l) (from v) /\ Forall fair_seg (map (deref_seg h) l)) ->
  exists x, view_region (is_dark pol) l = Ok (Single x) /\ faithful x (Fill (map (deref_seg h) l) pol u).
Proof.
  intros (v & l' & E & C & F). unfold view_region. rewrite (view_segs_ok h l F). cbn [bind].
  destruct (boxes_box (map seg_box (map cseg (map (deref_seg h) l)))) as [b|] eqn:B; [|rewrite E in B; discriminate B].
  eexists. split; [reflexivity|]. split; [reflexivity|]. cbn [what prim_shape covers].
  assert (Q : forall q, (exists cs, Forall2 seg_is (map cseg (map (deref_seg h) l)) cs /\ fill cs q) <-> (exists cs, Forall2 goes (map (deref_seg h) l) cs /\ fill cs q)).
  { intro q. split; intros (cs & G & X); exists cs; (split; [|exact X]); apply (outline_is _ F); exact G. }
  split; [|exact Q]. split; [|split; [|right; exact I]]; cbn [bbox what prim_shape simple].
  - intros p P. apply Q in P as (cs & G & X). revert p X. apply (s_inside _ Se). exact (contour_inside _ _ _ F G B).
  - pose proof (follows_connected _ _ _ C F) as K. rewrite E in *. exists (cseg v), (map cseg l'). split; [reflexivity|]. split.
    + assert (seg_start (cseg v) = real_pt (from v)) as ->. { destruct v as [|a0 b0 [c|] d ap q pl un]; reflexivity. } exact K.
    + clear - F. induction F as [|x y X F IH]; cbn [map]; constructor; [|exact IH].
      destruct x as [|a0 b0 [c|] d ap q pl un]; cbn [cseg open_seg]; [exact I|exact (proj1 X)|exact I].
Qed.
Lemma vertices_regular c n r rot : map (polygon_vertex c n r rot) (seq 0 n) = regular c n r rot.
Proof.
  unfold regular. apply map_ext. intro i. unfold polygon_vertex, rotate_point, at_angle, radians. cbn [fst snd]. f_equal; ring.
Qed.
Definition macro_stamp (m : mark) : Prop :=
  match m with Stamp o => match GerberEval.o_shape o with GerberEval.ShMacro _ => True | _ => False end | _ => False end.
Lemma view_flash_ok o : ~ macro_stamp (Stamp o) -> GerberEval.o_pos o <> None -> fair_flash (dark_mark (Stamp o)) (GerberEval.o_shape o) ->
  exists x, view_flash o = Ok (Single x) /\ faithful x (Stamp o).
Proof.
  intros Nm P F. unfold view_flash. unfold faithful. cbn [macro_stamp] in Nm. cbn [covers]. destruct (GerberEval.o_pos o) as [c|]; [|congruence]. clear P.
  assert (Dk : is_dark (GerberEval.o_pol o) = dark_mark (Stamp o)) by reflexivity.
  destruct (GerberEval.o_shape o) as [d hd hw hh|w h hd hw hh|w h hd hw hh|n r rot hd hw hh|ps] eqn:E; cbn [fair_flash flashed] in *.
  - destruct F as [D R]. eexists. split; [reflexivity|]. cbn [dark what prim_shape]. split; [exact Dk|]. split; [|reflexivity].
    split; [|split; [exact D|]]; cbn [bbox what prim_shape dark removable].
    + apply with_holes_inside. apply circle_bounds. lra.
    + rewrite Dk. tauto.
  - destruct F as (W & H & R). eexists. split; [reflexivity|]. cbn [dark what prim_shape]. split; [exact Dk|]. split; [|intro q; apply with_holes_iff; apply turned_zero].
    split; [|split; [cbn; auto|]]; cbn [bbox what prim_shape dark removable].
    + apply with_holes_inside. apply rect_quarter; lra.
    + rewrite Dk. exact R.
  - destruct F as (W & H). eexists. split; [reflexivity|]. cbn [dark what prim_shape]. split; [exact Dk|]. split; [|intro q; apply with_holes_iff; apply turned_zero].
    split; [|split; [cbn; auto|right; exact I]]; cbn [bbox what prim_shape].
    apply with_holes_inside. apply obround_unrotated; lra.
  - destruct F as (N & R & K). unfold view_polygon. destruct (Z.eqb_spec n 0); [lia|]. cbn [bind]. rewrite vertices_regular. eexists. split; [reflexivity|].
    cbn [dark what prim_shape]. split; [exact Dk|]. split; [|reflexivity]. split; [|split]; cbn [bbox what prim_shape dark removable simple].
    + apply with_holes_inside. apply (s_inside _ Se). apply sides_inside. intros p J. rewrite <- vertices_regular in J. apply in_map_iff in J as (i & <- & _).
      exact (proj1 (disc_bounds (real_pt c) (real r) R) _ (vertex_disc (real_pt c) (Z.to_nat n) (real r) (real rot) i R)).
    + intro Nil. apply (f_equal (@List.length pt)) in Nil. unfold regular in Nil. rewrite map_length, seq_length in Nil. cbn in Nil. lia.
    + rewrite Dk. exact K.
  - destruct Nm. exact I.
Qed.
Lemma view_single h p m : ~ macro_stamp m -> deref h p = Some m -> fair m -> exists d, view h p = Ok (Single d) /\ faithful d m.
Proof.
  intro Nm. destruct p as [[a b ap pol u|a b c d ap q pol u]|l pol u|ap]; cbn [deref deref_seg].
  - intros D F. injection D as <-. cbn [fair] in F. destruct ap as [ap|]; cbn [deref_ap] in *; [|contradiction]. cbn [view].
    destruct (GerberEval.fetch h ap) as [o|]; [|contradiction]. now apply view_line_ok.
  - intros D F. injection D as <-. cbn [fair] in F. destruct c as [c|]; [|contradiction]. destruct ap as [ap|]; cbn [deref_ap] in *; [|contradiction]. cbn [view].
    destruct (GerberEval.fetch h ap) as [o|]; [|contradiction]. destruct F. now apply view_arc_ok.
  - intros D F. injection D as <-. cbn [fair view] in *. now apply view_region_ok.
  - intros D F. cbn [view]. destruct (GerberEval.fetch h ap) as [o|]; [|discriminate]. injection D as <-. destruct F. now apply view_flash_ok.
Qed.
(** Each primitive is as solid as its mark. *)
Lemma view_solid h p m d : deref h p = Some m -> solid_mark m -> view h p = Ok (Single d) -> solid (what d).
Proof.
  destruct p as [[a b ap pol u|a b c x ap q pol u]|l pol u|ap]; cbn [deref view]; intros D [_ So] V.
  - destruct ap as [ap|]; [|discriminate]. destruct (GerberEval.fetch h ap) as [o|]; [|discriminate]. unfold view_line in V.
    destruct (GerberEval.o_shape o); try discriminate V.
    + apply ok_inj in V. injection V as <-. exact I.
    + destruct (line_vertices _ _ _ _) as [vs|]; [|discriminate V]. apply ok_inj in V. injection V as <-. exact I.
  - destruct c as [c|]; [|destruct ap; discriminate]. destruct ap as [ap|]; [|discriminate]. destruct (GerberEval.fetch h ap) as [o|]; [|discriminate]. unfold view_arc in V.
    destruct (GerberEval.o_shape o); try discriminate V. apply ok_inj in V. injection V as <-. exact I.
  - unfold view_region in V. destruct (mapM view_seg l); [|discriminate V]. cbn [bind] in V. destruct (boxes_box _); [|discriminate V]. apply ok_inj in V. injection V as <-. exact I.
  - destruct (GerberEval.fetch h ap) as [o|]; [|discriminate]. injection D as <-. unfold view_flash in V. cbn [solid_mark] in So.
    destruct (GerberEval.o_pos o); [|discriminate V]. destruct (GerberEval.o_shape o).
    + apply ok_inj in V. injection V as <-. exact So.
    + apply ok_inj in V. injection V as <-. exact So.
    + apply ok_inj in V. injection V as <-. exact So.
    + unfold view_polygon in V. destruct (_ =? _)%Z; [discriminate V|]. apply ok_inj in V. injection V as <-. exact So.
    + unfold view_macro in V. destruct (mapM _ _); [|discriminate V]. cbn [bind] in V. destruct (group_shapes _) as [sh|] eqn:G; [|discriminate V]. cbn [bind] in V. destruct (mapM (view_part _) sh); discriminate V.
Qed.
(** What is rendered for a mark, up to parts which are rendered alike. *)
Record faithful_item (i : item) (m : mark) : Prop := {
  f_dark : fst (item_shape fill i) = dark_mark m;
  f_fine : renderable_item fill i;
  f_shape : forall q, snd (item_shape fill i) q <-> covers fill m q;
  f_solid : solid_mark m -> invertible_item fill i;
  f_parts : forall d, In d (parts i) -> encloses (bbox d) (prim_shape fill (what d)) /\ exists x, piece fill m x /\ forall q, prim_shape fill (what d) q <-> x q
}.
Definition shown_as (m : mark) (i : item) : Prop := exists i', faithful_item i' m /\ Forall2 (same_render fill) (parts i) (parts i').
Lemma piece_all m : ~ macro_stamp m -> piece fill m (covers fill m).
Proof. destruct m as [| |[[] [] pol u]]; cbn; try reflexivity. intros []. exact I. Qed.
Lemma macro_mark_dec m : macro_stamp m \/ ~ macro_stamp m.
Proof. destruct m as [| |[[] p pol u]]; cbn; tauto. Qed.
Lemma view_ok h p m : deref h p = Some m -> fair m -> exists i, view h p = Ok i /\ shown_as m i.
Proof.
  intros D F. destruct (macro_mark_dec m) as [M|M].
  - destruct m as [| |[[| | | |ps] pos pol u]]; cbn [macro_stamp GerberEval.o_shape] in M; try contradiction. destruct F as [P F]. cbn [GerberEval.o_pos] in P. destruct pos as [c|]; [|congruence]. clear P M.
    cbn [fair_flash GerberEval.o_shape] in F. destruct F as (Dk & prims & Mi & Fp). destruct pol; [|discriminate Dk]. clear Dk.
    destruct p as [s|l pol u0|ap]; [discriminate|discriminate|]. cbn [deref view] in *. destruct (GerberEval.fetch h ap) as [o|]; [|discriminate]. injection D as ->.
    cbn [view_flash GerberEval.o_pos GerberEval.o_shape GerberEval.o_pol is_dark].
    destruct (view_macro_ok fill Se (real_pt c) ps prims Mi Fp) as (ds & ds' & V & R & K & Q). exists (Group true ds). split; [exact V|]. exists (Group true ds'). split; [|exact R].
    assert (X : forall d, In d ds' -> exists a, (In a prims /\ exposed a = true) /\ part_ok fill (real_pt c) a d).
    { assert (X : forall d, In d ds' -> exists a, In a prims /\ part_ok fill (real_pt c) a d); [|intros d J; destruct (X d J) as (a & Ja & Y); exists a; split; [split; [exact Ja|]|exact Y]; rewrite Forall_forall in Fp; now apply fair_exposed, Fp]. clear - K. induction K as [|a d0 prims ds' Y K IH]; intros d J; [destruct J|]. destruct J as [->|J]; [exists a; split; [now left|exact Y]|]. destruct (IH d J) as (a' & J' & Y'). exists a'. split; [now right|exact Y']. }
    constructor.
    + reflexivity.
    + split; [reflexivity|]. apply Forall_forall. intros d J. destruct (X d J) as (a & [_ On] & Dk & (E & Si & _) & Rm & _). rewrite On in Dk. split; [|exact Dk]. split; [exact E|]. split; [exact Si|now left].
    + intro q. apply Q.
    + intros _. split; [reflexivity|]. apply Forall_forall. intros d J. destruct (X d J) as (a & [_ On] & Dk & (E & Si & So) & _). rewrite On in Dk. split; [exact E|]. split; [exact Si|]. split; [exact Dk|exact So].
    + intros d J. destruct (X d J) as (a & [Ja _] & Dk & (E & _) & _ & Ar). split; [exact E|]. exists (area fill (real_pt c) a). split; [|exact Ar]. cbn [piece]. eauto.
  - destruct (view_single h p m M D F) as (d & V & (Dk & R & Q)). exists (Single d). split; [exact V|]. exists (Single d). split; [|cbn [parts]; constructor; [intros ? ?; reflexivity|constructor]]. constructor.
    + exact Dk.
    + exact R.
    + exact Q.
    + intro So. pose proof (view_solid h p m d D So V) as Z. destruct R as (E & Si & _). cbn. split; [exact E|]. split; [exact Si|]. split; [rewrite Dk; apply So|exact Z].
    + intros x [<-|[]]. split; [apply R|]. exists (covers fill m). split; [now apply piece_all|exact Q].
Qed.
Lemma views_ok h : forall l ms, map (deref h) l = map Some ms -> Forall fair ms ->
  exists is is', mapM (view h) l = Ok is /\ Forall2 faithful_item is' ms /\ Forall2 (same_render fill) (flat_map parts is) (flat_map parts is').
Proof.
  induction l as [|p l IH]; intros [|m ms] D F; try discriminate; [exists [], []; split; [reflexivity|split; constructor]|].
  cbn [map] in D. injection D as D1 D2. inversion F; subst. destruct (view_ok h p m D1) as (i & V & (i' & X & R)); [assumption|]. destruct (IH ms D2) as (is & is' & Vs & Xs & Rs); [assumption|].
  exists (i :: is), (i' :: is'). cbn [mapM map flat_map]. rewrite V. cbn [bind]. rewrite Vs. cbn [bind]. split; [reflexivity|]. split; [now constructor|]. now apply Forall2_app.
Qed.
Lemma same_layer is is' c : Forall2 (same_render fill) (flat_map parts is) (flat_map parts is') -> render_layer fill c is = render_layer fill c is'.
Proof.
  unfold render_layer. generalize (fun q => invert c = true /\ on_surface c q). generalize (flat_map parts is) (flat_map parts is').
  intros l l' layer F. revert layer. induction F as [|d d' l l' D F IH]; intro layer; [reflexivity|]. cbn [render_all]. rewrite (D c layer). destruct (render fill c d' layer); [apply IH|reflexivity].
Qed.

(** ** Files *)
Lemma shows_layer is ms p : Forall2 faithful_item is ms -> layer_shows fill is p <-> shows fill ms p.
Proof.
  intro F. unfold layer_shows, darkened, shows. split.
  - intros (l1 & s & l2 & E & S & N). apply map_eq_app in E as (d1 & d2' & -> & <- & E). destruct d2' as [|d d2]; [discriminate|]. cbn [map] in E. injection E as E1 E2.
    apply Forall2_app_inv_l in F as (m1 & m2' & F1 & F2 & ->). inversion F2 as [|? m ? m2 X F2' A B]; subst. exists m1, m, m2.
    split; [reflexivity|]. split; [rewrite <- (f_dark _ _ X), E1; reflexivity|]. split; [apply (f_shape _ _ X); now rewrite E1|]. intros m' J K C. clear - F2' J K C N.
    induction F2' as [|y z ys zs Y F IH]; [destruct J|]. destruct J as [->|J].
    + apply (N (snd (item_shape fill y))); [left; rewrite (surjective_pairing (item_shape fill y)); f_equal; now rewrite (f_dark _ _ Y)|now apply (f_shape _ _ Y)].
    + apply IH; [|exact J]. intros s' I'. apply N. now right.
  - intros (m1 & m & m2 & -> & K & S & N). apply Forall2_app_inv_r in F as (d1 & d2' & F1 & F2 & ->). inversion F2 as [|d ? d2 ? X F2' A B]; subst.
    exists (map (item_shape fill) d1), (snd (item_shape fill d)), (map (item_shape fill) d2). rewrite map_app. cbn [map].
    split; [f_equal; f_equal; rewrite (surjective_pairing (item_shape fill d)) at 1; f_equal; now rewrite (f_dark _ _ X)|]. split; [now apply (f_shape _ _ X)|]. intros s' J C. clear - F2' J C N.
    induction F2' as [|y z ys zs Y F IH]; [destruct J|]. destruct J as [J|J].
    + apply (N z); [now left| |apply (f_shape _ _ Y); now rewrite J]. rewrite <- (f_dark _ _ Y), J. reflexivity.
    + apply IH; [|exact J]. intros m' I'. apply N. now right.
Qed.
Lemma tops s is ms p : 0 < s -> Forall2 faithful_item is ms -> below_tops fill s ms p -> below_top fill s is p.
Proof.
  intros S F B d J C. apply in_flat_map in J as (i & Ji & Jd).
  assert (M : exists m, In m ms /\ faithful_item i m).
  { clear - F Ji. induction F as [|y z ys zs Y F IH]; [destruct Ji|]. destruct Ji as [->|J]; [exists z; split; [now left|exact Y]|]. destruct (IH J) as (m & I & X). exists m. split; [now right|exact X]. }
  destruct M as (m & Im & X). destruct (f_parts _ _ X d Jd) as (E & x & P & Q). destruct (B m x Im P (proj1 (Q p) C)) as (q & Cq & L). destruct (E q (proj2 (Q q) Cq)) as [_ [_ T]]. nra.
Qed.
Lemma file_items fc l st l' ms : GerberEval.evaluate_all fc GerberEval.g_init l = Ok (st, l') -> image fc [] l = Some ms -> Forall fair ms ->
  exists is is', mapM (view (GerberEval.g_store st)) (GerberEval.g_prims st) = Ok is /\ Forall2 faithful_item is' ms /\ forall c, render_layer fill c is = render_layer fill c is'.
Proof.
  intros Ev Im F. destruct (proj2 (GerberEvalProofs.evaluate_image fc l [] GerberEval.g_init st l' (GerberEvalProofs.inv_init fc) Ev)) as (ms' & Im' & Sh).
  assert (ms' = ms) by congruence. subst ms'. destruct (views_ok (GerberEval.g_store st) (GerberEval.g_prims st) ms Sh F) as (is & is' & V & W & R).
  exists is, is'. split; [exact V|]. split; [exact W|]. intro c. now apply same_layer.
Qed.
Lemma file_shown fc l st l' ms s b mir : GerberEval.evaluate_all fc GerberEval.g_init l = Ok (st, l') -> image fc [] l = Some ms -> Forall fair ms ->
  0 < s -> fst (fst b) <= snd (fst b) -> fst (snd b) <= snd (snd b) ->
  exists img, render_file fill s b false mir (GerberEval.g_store st) (GerberEval.g_prims st) = Ok img /\
    forall p, inside b p -> below_tops fill s ms p -> (img (pixel s b mir p) <-> shows fill ms p).
Proof.
  intros Ev Im F S X Y. destruct (file_items fc l st l' ms Ev Im F) as (is & is' & V & W & R). unfold render_file. rewrite V. cbn [bind]. rewrite R.
  destruct (layer_ok fill b s mir is' (s_filling _ Se) S X Y) as (img & Ri & Im2).
  { clear - W. induction W as [|d m ds ms D W IH]; constructor; [exact (f_fine _ _ D)|exact IH]. }
  exists img. split; [exact Ri|]. intros p P B. rewrite (Im2 p P (tops s is' ms p S W B)). now apply shows_layer.
Qed.
Lemma file_inverted fc l st l' ms s b mir : GerberEval.evaluate_all fc GerberEval.g_init l = Ok (st, l') -> image fc [] l = Some ms -> Forall fair ms -> Forall solid_mark ms ->
  0 < s -> fst (fst b) <= snd (fst b) -> fst (snd b) <= snd (snd b) ->
  exists img, render_file fill s b true mir (GerberEval.g_store st) (GerberEval.g_prims st) = Ok img /\
    forall p, inside b p -> below_tops fill s ms p -> (img (pixel s b mir p) <-> ~ shows fill ms p).
Proof.
  intros Ev Im F So S X Y. destruct (file_items fc l st l' ms Ev Im F) as (is & is' & V & W & R). unfold render_file. rewrite V. cbn [bind]. rewrite R.
  destruct (inverted_ok fill b s mir is' (s_filling _ Se) S X Y) as (img & Ri & Im2).
  { clear - W So. induction W as [|d m ds ms D W IH]; constructor; inversion So; subst; [now apply (f_solid _ _ D)|now apply IH]. }
  exists img. split; [exact Ri|]. intros p P B. rewrite (Im2 p P (tops s is' ms p S W B)). now rewrite (shows_layer is' ms p W).
Qed.

(** ** Macros taken apart *)
Definition part_is (d : drawn) (x : bool * shape) : Prop := dark d = fst x /\ renderable fill d /\ forall q, prim_shape fill (what d) q <-> snd x q.
Lemma view_apart h p m : deref h p = Some m -> drawn_mark m ->
  exists i ds l, view h p = Ok i /\ Forall2 (same_render fill) (parts i) ds /\ taken_apart fill m l /\ Forall2 part_is ds l.
Proof.
  intros D F. destruct (macro_mark_dec m) as [M|M].
  - destruct m as [| |[[| | | |ps] pos pol u]]; cbn [macro_stamp GerberEval.o_shape] in M; try contradiction. destruct pos as [c|]; [|destruct F as [F _]; cbn [GerberEval.o_pos] in F; congruence]. clear M.
    destruct F as (prims & Mi & Fp). destruct p as [s|l pol0 u0|ap]; [discriminate|discriminate|]. cbn [deref view] in *. destruct (GerberEval.fetch h ap) as [o|]; [|discriminate]. injection D as ->.
    cbn [view_flash GerberEval.o_pos GerberEval.o_shape GerberEval.o_pol].
    destruct (view_macro_parts fill Se (is_dark pol) (real_pt c) ps prims Mi Fp) as (ds & ds' & V & R & K). exists (Group (is_dark pol) ds), ds', (map (fun a => (exposed a, area fill (real_pt c) a)) prims).
    split; [exact V|]. split; [exact R|]. split; [cbn [taken_apart]; eauto|]. clear - K. induction K as [|a d prims ds' (Dk & (E & Si & _) & Rm & Q) K IH]; cbn [map]; constructor; [|exact IH].
    split; [exact Dk|]. split; [|exact Q]. split; [exact E|]. split; [exact Si|now right].
  - assert (F' : fair m) by (destruct m as [| |[[| | | |ps] pos pol u]]; try exact F; destruct M; exact I).
    destruct (view_single h p m M D F') as (d & V & (Dk & R & Q)). exists (Single d), [d], [(dark_mark m, covers fill m)]. split; [exact V|]. split; [cbn [parts]; constructor; [intros ? ?; reflexivity|constructor]|].
    split; [destruct m as [| |[[| | | |ps] pos pol u]]; try reflexivity; destruct M; exact I|]. constructor; [|constructor]. split; [exact Dk|]. split; [exact R|exact Q].
Qed.
Lemma taken_unique m l l' : taken_apart fill m l -> taken_apart fill m l' -> l = l'.
Proof.
  destruct m as [| |[[| | | |ps] [c|] pol u]]; cbn [taken_apart]; try congruence. intros (a & A & ->) (b & B & ->). now rewrite (macro_unique ps a b A B).
Qed.
Lemma taken_piece m l x : taken_apart fill m l -> In x l -> piece fill m (snd x).
Proof.
  destruct m as [| |[[| | | |ps] [c|] pol u]]; cbn [taken_apart piece]; try (intros -> [<-|[]]; reflexivity).
  intros (prims & M & ->) J. apply in_map_iff in J as (a & <- & J). exists prims, a. auto.
Qed.
Lemma views_apart h : forall l ms ls, map (deref h) l = map Some ms -> Forall drawn_mark ms -> Forall2 (taken_apart fill) ms ls ->
  exists is ds, mapM (view h) l = Ok is /\ Forall2 (same_render fill) (flat_map parts is) ds /\ Forall2 part_is ds (List.concat ls).
Proof.
  induction l as [|p l IH]; intros [|m ms] ls D F A; try discriminate.
  - inversion A; subst. exists [], []. split; [reflexivity|split; constructor].
  - inversion A as [|? x ? ls' Ax As]; subst. cbn [map] in D. injection D as D1 D2. inversion F; subst. destruct (view_apart h p m D1) as (i & ds & y & V & R & Y & P); [assumption|].
    rewrite (taken_unique m y x Y Ax) in *. destruct (IH ms ls' D2) as (is & ds' & Vs & Rs & Ps); [assumption|assumption|]. exists (i :: is), (ds ++ ds'). cbn [mapM flat_map List.concat]. rewrite V. cbn [bind]. rewrite Vs. cbn [bind].
    split; [reflexivity|]. split; now apply Forall2_app.
Qed.
Lemma parts_darkened ds l p : Forall2 part_is ds l -> darkened (map (drawn_shape fill) ds) p <-> darkened l p.
Proof.
  intro F. rewrite <- !puts_darkened. generalize False. induction F as [|d x ds l (Dk & _ & Q) F IH]; intro B; [reflexivity|]. change (puts p (map (drawn_shape fill) ds) (put p B (drawn_shape fill d)) <-> puts p l (put p B x)).
  rewrite IH. apply puts_iff. unfold put, drawn_shape. cbn [fst snd]. rewrite Dk. destruct (fst x); rewrite Q; reflexivity.
Qed.
Lemma file_apart fc l st l' ms ls s b mir : GerberEval.evaluate_all fc GerberEval.g_init l = Ok (st, l') -> image fc [] l = Some ms -> Forall drawn_mark ms -> Forall2 (taken_apart fill) ms ls ->
  0 < s -> fst (fst b) <= snd (fst b) -> fst (snd b) <= snd (snd b) ->
  exists img, render_file fill s b false mir (GerberEval.g_store st) (GerberEval.g_prims st) = Ok img /\
    forall p, inside b p -> below_tops fill s ms p -> (img (pixel s b mir p) <-> darkened (List.concat ls) p).
Proof.
  intros Ev Im F A S X Y. destruct (proj2 (GerberEvalProofs.evaluate_image fc l [] GerberEval.g_init st l' (GerberEvalProofs.inv_init fc) Ev)) as (ms' & Im' & Sh).
  assert (ms' = ms) by congruence. subst ms'. destruct (views_apart (GerberEval.g_store st) (GerberEval.g_prims st) ms ls Sh F A) as (is & ds & V & R & P).
  unfold render_file. rewrite V. cbn [bind].
  assert (Fm : flat_map parts (map Single ds) = ds) by (clear; induction ds; cbn; congruence).
  rewrite (same_layer is (map Single ds)) by (now rewrite Fm).
  destruct (layer_ok fill b s mir (map Single ds) (s_filling _ Se) S X Y) as (img & Ri & Im2).
  { clear - P. induction P as [|d x ds l (_ & R & _) P IH]; cbn [map]; constructor; [exact R|exact IH]. }
  exists img. split; [exact Ri|]. intros p Pi B. rewrite Im2; [|exact Pi|].
  - unfold layer_shows. rewrite map_map. now apply parts_darkened.
  - intros d J C. rewrite Fm in J. assert (K : exists x, In x (List.concat ls) /\ part_is d x).
    { clear - P J. induction P as [|d0 x ds l Q P IH]; [destruct J|]. destruct J as [->|J]; [exists x; split; [now left|exact Q]|]. destruct (IH J) as (y & Jy & Qy). exists y. split; [now right|exact Qy]. }
    destruct K as (x & Jx & (_ & (E & _) & Q)). apply in_concat in Jx as (lx & Jl & Jx).
    assert (M : exists m, In m ms /\ taken_apart fill m lx).
    { clear - A Jl. induction A as [|m y ms ls Q A IH]; [destruct Jl|]. destruct Jl as [->|J]; [exists m; split; [now left|exact Q]|]. destruct (IH J) as (m' & I' & Q'). exists m'. split; [now right|exact Q']. }
    destruct M as (m & Jm & T0). destruct (B m (snd x) Jm (taken_piece m lx x T0 Jx) (proj1 (Q p) C)) as (q & Cq & L). destruct (E q (proj2 (Q q) Cq)) as [_ [_ Ty]]. nra.
Qed.
End Show.
