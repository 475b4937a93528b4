(** Images of whole Gerber files: the bounds, a filling rule, and what is not shown. *)
From Coq Require Import Lra Lia Qreals.
From Verif Require Import PyBase QcLib GeomModel GeomSpec GeomProofs HullModel HullSpec HullProofs CairoModel CairoSpec CairoProofs CairoLayer CairoMore CairoScale MacroGeomModel MacroGeomSpec MacroGeomProofs ShowModel ShowSpec ShowMacro ShowProofs.
From Verif Require Import GerberText.
From Verif Require GerberEval GerberEvalSpec GerberEvalProofs.
Import ListNotations GerberEvalSpec.
Open Scope R_scope.
Open Scope list_scope.

(** ** A sensible filling rule: the convex hull *)
Definition hulled (l : list curve) : shape := fun p => forall w, exists q, moving l q /\ along w p <= along w q.
Lemma hulled_iff l l' p : (forall q, moving l q <-> moving l' q) -> hulled l p <-> hulled l' p.
Proof. intro H. split; intros X w; destruct (X w) as (q & M & L); exists q; split; try apply H; assumption. Qed.
Lemma along_magnify w s p : along w (magnify s p) = s * along w p.
Proof. unfold along, magnify. cbn [fst snd]. ring. Qed.
Lemma moving_mags s l q : 0 < s -> moving (mags s l) q <-> exists q', moving l q' /\ q = magnify s q'.
Proof.
  intro S. assert (q = magnify s (fst q / s, snd q / s)) as E by (destruct q; unfold magnify; cbn; f_equal; field; lra). rewrite E. split.
  - intro M. eexists. split; [apply (moving_magnify s); [exact S|exact M]|reflexivity].
  - intros (q' & M & E'). apply magnify_inj in E'; [|exact S]. rewrite E'. now apply moving_magnify.
Qed.
Lemma hulled_filling : filling hulled.
Proof.
  constructor.
  - intros l l' p H. apply hulled_iff. intro q. split; apply moving_same; [exact H|now apply same_sym].
  - intros l1 f l2 p S. apply hulled_iff. intro q. now apply moving_still.
  - intros s l p S. split; intros X w; destruct (X w) as (q & M & L).
    + apply (moving_mags s l q S) in M as (q' & M & ->). exists q'. split; [exact M|]. rewrite !along_magnify in L. apply Rmult_le_reg_l with s; lra.
    + exists (magnify s q). split; [apply (moving_mags s l _ S); eauto|]. rewrite !along_magnify. apply Rmult_le_compat_l; lra.
Qed.
Lemma moving_traced l q : moving l q -> traced l q.
Proof. intros (f & t & J & _ & T & E). exists f, t. auto. Qed.
Lemma hulled_inside l b : encloses b (traced l) -> encloses b (hulled l).
Proof.
  intros E p H. destruct (H (1, 0)) as (q1 & M1 & L1), (H (-1, 0)) as (q2 & M2 & L2), (H (0, 1)) as (q3 & M3 & L3), (H (0, -1)) as (q4 & M4 & L4).
  unfold along in *. cbn [fst snd] in *.
  pose proof (E _ (moving_traced _ _ M1)) as I1. pose proof (E _ (moving_traced _ _ M2)) as I2. pose proof (E _ (moving_traced _ _ M3)) as I3. pose proof (E _ (moving_traced _ _ M4)) as I4.
  unfold inside in *. lra.
Qed.
Lemma joined_sides : forall l from u v, In (u, v) (combine (from :: l) l) -> In (straight u v) (joined from l).
Proof.
  induction l as [|q l IH]; intros from u v J; [destruct J|]. cbn [combine joined] in *. destruct J as [J|J]; [left; congruence|right]. now apply IH.
Qed.
Lemma joined_from : forall l from f, In f (joined from l) -> exists u v, In u (from :: l) /\ In v l /\ f = straight u v.
Proof.
  induction l as [|q l IH]; intros from f J; [destruct J|]. cbn [joined] in J. destruct J as [<-|J].
  - exists from, q. split; [now left|]. split; [now left|reflexivity].
  - destruct (IH q f J) as (u & v & U & V & E). exists u, v. split; [now right|]. split; [now right|exact E].
Qed.
Lemma sides_from l f : In f (CairoSpec.sides l) -> exists u v, In u l /\ In v l /\ f = straight u v.
Proof.
  unfold CairoSpec.sides. intro J. destruct (joined_from _ _ _ J) as (u & v & U & V & E). exists u, v. split; [|auto]. destruct U as [<-|U]; [|exact U].
  apply last_in. intro N. subst l. destruct V.
Qed.
Lemma combine_end {A} : forall (r : list A) (p q d : A), combine (p :: r) (r ++ [q]) = combine (p :: r) r ++ [(last (p :: r) d, q)].
Proof.
  induction r as [|x r IH]; intros p q d; [reflexivity|]. change (combine (p :: x :: r) ((x :: r) ++ [q])) with ((p, x) :: combine (x :: r) (r ++ [q])).
  rewrite (IH x q d). reflexivity.
Qed.
Lemma sides_curve l u v : In (u, v) (HullSpec.sides l) -> In (straight u v) (CairoSpec.sides l).
Proof.
  destruct l as [|p r]; [intros []|]. unfold HullSpec.sides, CairoSpec.sides. rewrite (combine_end r p p (0, 0)). intro J. cbn [joined]. apply in_app_or in J as [J|[J|[]]].
  - right. now apply joined_sides.
  - left. congruence.
Qed.
Lemma side_ending l c : In c l -> exists u, In (u, c) (HullSpec.sides l).
Proof.
  destruct l as [|p r]; [intros []|]. unfold HullSpec.sides. rewrite (combine_end r p p (0, 0)). intros [->|J].
  - eexists. apply in_or_app. right. left. reflexivity.
  - enough (exists u, In (u, c) (combine (p :: r) r)) as (u & K) by (exists u; apply in_or_app; now left). clear - J. revert p. induction r as [|x r IH]; intro p; [destruct J|].
    destruct J as [->|J]; [exists p; now left|]. destruct (IH J x) as (u & K). exists u. now right.
Qed.
Lemma hulled_convex points corners : is_hull points corners -> forall p, hulled (CairoSpec.sides corners) p <-> left_of_all corners p.
Proof.
  intros [G S C _ _] p. split.
  - intros H u v UV. set (w := (snd v - snd u, - (fst v - fst u))). destruct (H w) as (q & (f & t & J & _ & T & ->) & L).
    destruct (sides_from _ _ J) as (a & b & Ia & Ib & ->). destruct (S u v a UV (G a Ia)) as [_ A]. destruct (S u v b UV (G b Ib)) as [_ B].
    unfold w, along, cross, straight in *. cbn [fst snd] in *.
    assert (K : 0 <= (1 - t) * ((fst v - fst u) * (snd a - snd u) - (snd v - snd u) * (fst a - fst u)) + t * ((fst v - fst u) * (snd b - snd u) - (snd v - snd u) * (fst b - fst u))).
    { apply Rplus_le_le_0_compat; apply Rmult_le_pos; lra. }
    lra.
  - intros L w. destruct (C w p L) as (c & Ic & Le). exists c. split; [|exact Le]. destruct (side_ending _ _ Ic) as (u & K). destruct (S u c c K (G c Ic)) as [N _].
    exists (straight u c), 1. split; [now apply sides_curve|]. split; [|split; [lra|]].
    + intro St. apply N. specialize (St 1). unfold straight in St. injection St as X Y. destruct u, c. cbn [fst snd] in *. f_equal; lra.
    + unfold straight. destruct c. cbn [fst snd]. f_equal; ring.
Qed.
Lemma hulled_sensible : sensible hulled.
Proof. constructor; [exact hulled_filling|exact hulled_inside|exact hulled_convex]. Qed.

(** ** The bounds of a file *)
Lemma evaluated_coords fc : forall l st st' l', GerberEval.evaluate_all fc st l = Ok (st', l') -> forall b, fold_left GerberEval.widen_stmt l' b = fold_left GerberEval.widen_stmt l b.
Proof.
  induction l as [|s l IH]; intros st st' l' H b; cbn [GerberEval.evaluate_all] in H; [apply ok_inj in H; injection H as _ <-; reflexivity|].
  destruct (GerberEval.evaluate fc st s) as [[st1 s1]|] eqn:E; [|discriminate]. cbn [bind] in H.
  destruct (GerberEval.evaluate_all fc st1 l) as [[st2 l2]|] eqn:E2; [|discriminate]. cbn [bind] in H. apply ok_inj in H. injection H as _ <-.
  cbn [fold_left]. rewrite (IH st1 st2 l2 E2). f_equal. clear - E.
  destruct s; cbn [GerberEval.evaluate] in E;
    try (destruct (GerberEval.evaluate_param st _) as [st0|]; [|discriminate E]; cbn [bind] in E); try (apply ok_inj in E; injection E as _ <-; reflexivity).
  unfold GerberEval.evaluate_coord in E. cbv zeta in E. destruct (GerberEval.only_function _ _ _ _ _ _).
  - apply ok_inj in E. injection E as _ <-. reflexivity.
  - match type of E with (do x <- ?r; _) = _ => destruct r as [st0|]; [|discriminate E] end. cbn [bind] in E. apply ok_inj in E. injection E as _ <-. reflexivity.
Qed.
Lemma least_unique v w l : least v l -> least w l -> v = w.
Proof. intros [A B] [C D]. apply Qcle_antisym; auto. Qed.
Lemma greatest_unique v w l : greatest v l -> greatest w l -> v = w.
Proof. intros [A B] [C D]. apply Qcle_antisym; auto. Qed.
Lemma coordinate_bounds l b : limited (zq 1000000) (x_coords l ++ y_coords l) -> coordinate_box l b -> real_box (GerberEval.file_bounds l) = b.
Proof.
  intros L (x0 & x1 & y0 & y1 & A & B & C & D & ->).
  destruct (GerberEvalProofs.bounds_tight l) as (A' & B' & C' & D').
  - destruct A as [A _]. intro N. rewrite N in A. destruct A.
  - destruct C as [C _]. intro N. rewrite N in C. destruct C.
  - exact L.
  - unfold real_box. rewrite (least_unique _ _ _ A' A), (greatest_unique _ _ _ B' B), (least_unique _ _ _ C' C), (greatest_unique _ _ _ D' D). reflexivity.
Qed.
Lemma coordinate_order l b : coordinate_box l b -> fst (fst b) <= snd (fst b) /\ fst (snd b) <= snd (snd b).
Proof. intros (x0 & x1 & y0 & y1 & [A _] & [_ B] & [C _] & [_ D] & ->). cbn [fst snd]. split; apply real_le; auto. Qed.

Lemma evaluates fc l ms : definitions_ok [] l -> image fc [] l = Some ms -> exists st l', GerberEval.evaluate_all fc GerberEval.g_init l = Ok (st, l').
Proof.
  intros D Im. destruct (GerberEval.evaluate_all fc GerberEval.g_init l) as [[st l']|e] eqn:E; [eauto|].
  pose proof (GerberEvalProofs.evaluate_all_error fc l [] GerberEval.g_init e (GerberEvalProofs.inv_init fc) D E) as X. destruct X as [X1 X2]. congruence.
Qed.
Lemma render_unfold fill fc s inv mir l st l' b : GerberEval.evaluate_all fc GerberEval.g_init l = Ok (st, l') -> limited (zq 1000000) (x_coords l ++ y_coords l) -> coordinate_box l b ->
  render_statements fill fc s inv mir l = render_file fill s b inv mir (GerberEval.g_store st) (GerberEval.g_prims st).
Proof.
  intros E L B. unfold render_statements. rewrite E. cbn [bind]. unfold GerberEval.file_bounds. rewrite (evaluated_coords fc l _ _ _ E).
  fold (GerberEval.file_bounds l). now rewrite (coordinate_bounds l b L B).
Qed.
Lemma C135_lemma fill fc s mir l ms b : sensible fill -> 0 < s -> definitions_ok [] l -> image fc [] l = Some ms -> Forall fair ms ->
  limited (zq 1000000) (x_coords l ++ y_coords l) -> coordinate_box l b ->
  exists img, render_statements fill fc s false mir l = Ok img /\
    forall p, inside b p -> below_tops fill s ms p -> (img (pixel s b mir p) <-> shows fill ms p).
Proof.
  intros Se S D Im F L B. destruct (evaluates fc l ms D Im) as (st & l' & E). rewrite (render_unfold fill fc s false mir l st l' b E L B).
  destruct (coordinate_order l b B). now apply (file_shown fill Se fc l st l').
Qed.
Lemma beyond_bounds fill fc s inv mir l b img p : 0 < s -> limited (zq 1000000) (x_coords l ++ y_coords l) -> coordinate_box l b ->
  render_statements fill fc s inv mir l = Ok img -> img (pixel s b mir p) -> inside b p.
Proof.
  intros S L B R I. destruct (GerberEval.evaluate_all fc GerberEval.g_init l) as [[st l']|] eqn:E.
  - rewrite (render_unfold fill fc s inv mir l st l' b E L B) in R. unfold render_file in R.
    destruct (mapM (view (GerberEval.g_store st)) (GerberEval.g_prims st)) as [items|]; [|discriminate]. cbn [bind] in R.
    destruct (coordinate_order l b B). exact (in_bounds fill b s inv mir items img p S H H0 R I).
  - unfold render_statements in R. rewrite E in R. discriminate.
Qed.
Lemma inverted_shown fill fc s mir l ms b : sensible fill -> 0 < s -> definitions_ok [] l -> image fc [] l = Some ms -> Forall fair ms -> Forall solid_mark ms ->
  limited (zq 1000000) (x_coords l ++ y_coords l) -> coordinate_box l b ->
  exists img, render_statements fill fc s true mir l = Ok img /\
    forall p, inside b p -> below_tops fill s ms p -> (img (pixel s b mir p) <-> ~ shows fill ms p).
Proof.
  intros Se S D Im F So L B. destruct (evaluates fc l ms D Im) as (st & l' & Ev). rewrite (render_unfold fill fc s true mir l st l' b Ev L B).
  destruct (coordinate_order l b B) as [X Y].
  now apply (file_inverted fill Se fc l st l').
Qed.
Lemma apart_shown fill fc s mir l ms ls b : sensible fill -> 0 < s -> definitions_ok [] l -> image fc [] l = Some ms -> Forall drawn_mark ms -> Forall2 (taken_apart fill) ms ls ->
  limited (zq 1000000) (x_coords l ++ y_coords l) -> coordinate_box l b ->
  exists img, render_statements fill fc s false mir l = Ok img /\
    forall p, inside b p -> below_tops fill s ms p -> (img (pixel s b mir p) <-> darkened (List.concat ls) p).
Proof.
  intros Se S D Im F A L B. destruct (evaluates fc l ms D Im) as (st & l' & E). rewrite (render_unfold fill fc s false mir l st l' b E L B).
  destruct (coordinate_order l b B). now apply (file_apart fill Se fc l st l' ms).
Qed.
