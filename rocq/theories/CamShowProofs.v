(** Images of whole files. *)
From Coq Require Import Lra Lia.
From Verif Require Import PyBase QcLib GeomModel GeomSpec GeomProofs HullModel HullSpec HullProofs CairoModel CairoSpec CairoProofs CairoLayer CairoMore CairoScale MacroModel AmModel AmSpec MacroGeomModel MacroGeomSpec MacroGeomProofs ShowModel ShowSpec ShowMacro ShowProofs ShowFile CamShowModel CamShowSpec.
From Verif Require Import GerberText.
From Verif Require GerberEval GerberEvalSpec GerberEvalProofs.
Import ListNotations GerberEvalSpec.
Open Scope R_scope.
Open Scope list_scope.

(** ** The box of all boxes *)
Lemma fold_least {A} (f : A -> R) : forall l a v, (forall x, In x l -> v <= f x) -> v <= a -> (exists x, In x l /\ f x <= v) -> fold_left (fun m x => Rmin (f x) m) l a = v.
Proof.
  assert (G : forall l a v, (forall x, In x l -> v <= f x) -> v = a -> fold_left (fun m x => Rmin (f x) m) l a = v).
  { induction l as [|x l IH]; intros a v L E; [cbn; congruence|]. cbn [fold_left]. apply IH; [intros; apply L; now right|]. pose proof (L x (or_introl eq_refl)). rewrite Rmin_right; lra. }
  induction l as [|x l IH]; intros a v L V (y & J & Y); [destruct J|]. cbn [fold_left]. destruct J as [->|J].
  - apply G; [intros; apply L; now right|]. pose proof (L y (or_introl eq_refl)). rewrite Rmin_left; lra.
  - apply IH; [intros; apply L; now right|apply Rmin_glb; [apply L; now left|exact V]|eauto].
Qed.
Lemma fold_greatest {A} (f : A -> R) : forall l a v, (forall x, In x l -> f x <= v) -> a <= v -> (exists x, In x l /\ v <= f x) -> fold_left (fun m x => Rmax (f x) m) l a = v.
Proof.
  assert (G : forall l a v, (forall x, In x l -> f x <= v) -> v = a -> fold_left (fun m x => Rmax (f x) m) l a = v).
  { induction l as [|x l IH]; intros a v L E; [cbn; congruence|]. cbn [fold_left]. apply IH; [intros; apply L; now right|]. pose proof (L x (or_introl eq_refl)). rewrite Rmax_right; lra. }
  induction l as [|x l IH]; intros a v L V (y & J & Y); [destruct J|]. cbn [fold_left]. destruct J as [->|J].
  - apply G; [intros; apply L; now right|]. pose proof (L y (or_introl eq_refl)). rewrite Rmax_left; lra.
  - apply IH; [intros; apply L; now right|apply Rmax_lub; [apply L; now left|exact V]|eauto].
Qed.
Lemma widened_folds : forall l b, fold_left widened l b =
  ((fold_left (fun m x => Rmin (fst (fst x)) m) l (fst (fst b)), fold_left (fun m x => Rmax (snd (fst x)) m) l (snd (fst b))),
   (fold_left (fun m x => Rmin (fst (snd x)) m) l (fst (snd b)), fold_left (fun m x => Rmax (snd (snd x)) m) l (snd (snd b)))).
Proof. induction l as [|x l IH]; intro b; [destruct b as [[? ?] [? ?]]; reflexivity|]. cbn [fold_left]. rewrite IH. reflexivity. Qed.
Lemma forall2_left {A B} (P : A -> B -> Prop) l m x : Forall2 P l m -> In x l -> exists y, In y m /\ P x y.
Proof.
  induction 1 as [|a b l m H F IH]; intros J; [destruct J|]. destruct J as [->|J]; [exists b; split; [now left|exact H]|]. destruct (IH J) as (y & Jy & Py). exists y. split; [now right|exact Py].
Qed.
Lemma forall2_right {A B} (P : A -> B -> Prop) l m y : Forall2 P l m -> In y m -> exists x, In x l /\ P x y.
Proof.
  induction 1 as [|a b l m H F IH]; intros J; [destruct J|]. destruct J as [->|J]; [exists a; split; [now left|exact H]|]. destruct (IH J) as (x & Jx & Px). exists x. split; [now right|exact Px].
Qed.
Lemma whole_gen {A} (ext : A -> shape) bs ms b L : Forall2 (fun x m => bounds x (ext m)) bs ms -> bounds b (fun p => exists m, In m ms /\ ext m p) -> within L b ->
  fold_left widened bs ((L, - L), (L, - L)) = b.
Proof.
  rename L into Limit. intros F [E T] W. rewrite widened_folds. cbn [fst snd].
  assert (L : forall x, In x bs -> fst (fst b) <= fst (fst x) /\ snd (fst x) <= snd (fst b) /\ fst (snd b) <= fst (snd x) /\ snd (snd x) <= snd (snd b)).
  { intros x J. destruct (forall2_left _ _ _ x F J) as (m & Jm & [_ ((p1 & P1 & Q1) & (p2 & P2 & Q2) & (p3 & P3 & Q3) & (p4 & P4 & Q4))]).
    pose proof (E p1 (ex_intro _ m (conj Jm P1))) as I1. pose proof (E p2 (ex_intro _ m (conj Jm P2))) as I2. pose proof (E p3 (ex_intro _ m (conj Jm P3))) as I3. pose proof (E p4 (ex_intro _ m (conj Jm P4))) as I4.
    unfold inside in *. lra. }
  assert (K : forall p, (exists m, In m ms /\ ext m p) -> exists x, In x bs /\ inside x p).
  { intros p (m & Jm & P). destruct (forall2_right _ _ _ m F Jm) as (x & Jx & [Ex _]). exists x. split; [exact Jx|now apply Ex]. }
  destruct W as (W1 & W2 & W3 & W4). destruct T as ((p1 & P1 & Q1) & (p2 & P2 & Q2) & (p3 & P3 & Q3) & (p4 & P4 & Q4)).
  pose proof (E p1 P1) as I1. pose proof (E p3 P3) as I3.
  destruct (K p1 P1) as (x1 & J1 & X1), (K p2 P2) as (x2 & J2 & X2), (K p3 P3) as (x3 & J3 & X3), (K p4 P4) as (x4 & J4 & X4). unfold inside in *.
  destruct b as [[b1 b2] [b3 b4]]. cbn [fst snd] in *.
  f_equal; f_equal.
  - apply fold_least; [intros x J; destruct (L x J); lra|lra|exists x1; split; [exact J1|lra]].
  - apply fold_greatest; [intros x J; destruct (L x J); lra|lra|exists x2; split; [exact J2|lra]].
  - apply fold_least; [intros x J; destruct (L x J); lra|lra|exists x3; split; [exact J3|lra]].
  - apply fold_greatest; [intros x J; destruct (L x J); lra|lra|exists x4; split; [exact J4|lra]].
Qed.
Lemma whole_is {A} (ext : A -> shape) bs ms b : Forall2 (fun x m => bounds x (ext m)) bs ms -> bounds b (fun p => exists m, In m ms /\ ext m p) -> within 1000000 b -> whole_box bs = b.
Proof. exact (whole_gen ext bs ms b 1000000). Qed.

(** ** The boxes of the marks *)
Lemma goes_some v : fair_seg v -> exists f, goes v f.
Proof.
  destruct v as [|a b [c|] d ap q pol u]; cbn [fair_seg goes]; [eauto| |contradiction]. intros [(r & f & l & A & _) _]. do 4 eexists. split; [exact A|reflexivity].
Qed.
Lemma goes_all l : Forall fair_seg l -> exists cs, Forall2 goes l cs.
Proof. induction 1 as [|v l V F (cs & IH)]; [exists []; constructor|]. destruct (goes_some v V) as (f & G). exists (f :: cs). now constructor. Qed.
Lemma goes_through v p : fair_seg v -> seg_shape (cseg v) p -> exists f t, goes v f /\ 0 <= t <= 1 /\ p = f t.
Proof.
  destruct v as [|a b [c|] d ap q pol u]; cbn [fair_seg goes cseg seg_shape]; [| |contradiction].
  - intros _ (t & T & ->). exists (straight (real_pt a) (real_pt b)), t. auto.
  - intros _ (r & g & l & t & A & T & ->). pose proof A as (_ & L & _). exists (curved (real_pt c) r g (match d with GerberEval.Counterclockwise => l | GerberEval.Clockwise => - l end)), (t / l).
    split; [exists r, g, l; auto|]. split; [split; [apply Rmult_le_pos; [lra|left; apply Rinv_0_lt_compat; lra]|apply Rmult_le_reg_r with l; [lra|]; unfold Rdiv; rewrite Rmult_assoc, Rinv_l; lra]|].
    unfold curved. cbn [the_arc a_center a_dir]. unfold turning. destruct d; f_equal; field; lra.
Qed.
Lemma contour_bounds l b : Forall fair_seg l -> boxes_box (map seg_box (map cseg l)) = Some b -> bounds b (fun p => exists cs, Forall2 goes l cs /\ traced cs p).
Proof.
  intros S B. assert (F : Forall2 bounds (map seg_box (map cseg l)) (map seg_shape (map cseg l))).
  { clear - S. induction S; cbn [map]; constructor; auto. now apply seg_bounds. }
  eapply bounds_ext; [|exact (boxes_bounds _ _ _ F B)]. intro p. split.
  - intros (s & J & P). rewrite map_map in J. apply in_map_iff in J as (v & <- & J). apply in_split in J as (l1 & l2 & ->). apply Forall_app in S as [S1 S2]. inversion S2 as [|? ? V S3]; subst.
    destruct (goes_through v p V P) as (f & t & G & T & ->). destruct (goes_all l1 S1) as (c1 & G1). destruct (goes_all l2 S3) as (c2 & G2). exists (c1 ++ f :: c2). split; [apply Forall2_app; [exact G1|now constructor]|].
    exists f, t. split; [apply in_or_app; right; now left|auto].
  - intros (cs & G & (f & t & J & T & ->)). destruct (forall2_right _ _ _ f G J) as (v & Jv & Gv). exists (seg_shape (cseg v)). split; [rewrite map_map; apply in_map_iff; eauto|]. apply goes_points; [|exact Gv|exact T]. rewrite Forall_forall in S. auto.
Qed.
Lemma single_box fill h p m (Se : sensible fill) : ~ macro_stamp m -> deref h p = Some m -> fair m -> exists d, view h p = Ok (Single d) /\ bounds (bbox d) (extent m).
Proof.
  intro Nm. destruct p as [[a b ap pol u|a b c d ap q pol u]|l pol u|ap]; cbn [deref deref_seg].
  - intros D F. injection D as <-. cbn [fair] in F. destruct ap as [ap|]; cbn [deref_ap] in *; [|contradiction]. cbn [view].
    destruct (GerberEval.fetch h ap) as [o|]; [|contradiction]. cbn [extent covers]. unfold line_pen, view_line, pen in *. destruct (GerberEval.o_shape o) as [d hd hw hh|w h0 hd hw hh| | |] eqn:E; try contradiction.
    + destruct F as [D _]. eexists. split; [reflexivity|]. cbn [bbox]. apply line_round_bounds. lra.
    + destruct F as (W & H & _). destruct (line_sweep (real_pt a) (real_pt b) (real w) (real h0) W H) as (vs & V & _). rewrite V. cbn [bind]. eexists. split; [reflexivity|]. cbn [bbox]. apply line_rect_bounds; lra.
  - intros D F. injection D as <-. cbn [fair] in F. destruct c as [c|]; [|contradiction]. destruct ap as [ap|]; cbn [deref_ap] in *; [|contradiction]. cbn [view].
    destruct (GerberEval.fetch h ap) as [o|]; [|contradiction]. destruct F as [P A]. cbn [extent covers]. unfold arc_pen, view_arc, pen in *. destruct (GerberEval.o_shape o) as [w hd hw hh| | | |] eqn:E; try contradiction.
    destruct P as [P _]. eexists. split; [reflexivity|]. cbn [bbox]. change (arc_of a b c d q) with (the_arc a b c d q). unfold arc_box. rewrite grow_sum. apply stroke_bounds; [now apply fair_arc_bounds|]. apply (disc_bounds (0, 0) (real w / 2)). lra.
  - intros D F. injection D as <-. cbn [fair view] in *. destruct F as (v & l' & E & C & F). unfold view_region. rewrite (view_segs_ok h l F). cbn [bind].
    destruct (boxes_box (map seg_box (map cseg (map (deref_seg h) l)))) as [b|] eqn:B; [|rewrite E in B; discriminate B]. eexists. split; [reflexivity|]. cbn [bbox extent]. now apply contour_bounds.
  - intros D F. cbn [view]. destruct (GerberEval.fetch h ap) as [o|]; [|discriminate]. injection D as <-. destruct F as [P F]. cbn [extent]. unfold view_flash. cbn [macro_stamp] in Nm.
    destruct (GerberEval.o_pos o) as [c|]; [|congruence]. destruct (GerberEval.o_shape o) as [d hd hw hh|w h0 hd hw hh|w h0 hd hw hh|n r rot hd hw hh|ps] eqn:E; cbn [fair_flash flash_extent] in *.
    + eexists. split; [reflexivity|]. cbn [bbox]. apply circle_bounds. lra.
    + eexists. split; [reflexivity|]. cbn [bbox]. eapply bounds_ext; [intro q; apply turned_zero|]. apply rect_quarter; lra.
    + eexists. split; [reflexivity|]. cbn [bbox]. eapply bounds_ext; [intro q; apply turned_zero|]. apply obround_unrotated; lra.
    + destruct F as (N & R & K). unfold view_polygon. destruct (Z.eqb_spec n 0); [lia|]. cbn [bind]. eexists. split; [reflexivity|]. cbn [bbox]. now apply polygon_box_disc.
    + destruct Nm. exact I.
Qed.

(** ** Macros *)
Lemma stroke_zero a b p : stroke (segment a b) (disc (0, 0) (0 / 2)) p <-> segment a b p.
Proof.
  split.
  - intros (q & v & Q & V & ->). unfold disc, dist2 in V. cbn [fst snd] in V. assert (fst v = 0 /\ snd v = 0) as [-> ->] by (split; nra). rewrite !Rplus_0_r. now destruct q.
  - intro Q. exists p, (0, 0). split; [exact Q|]. split; [unfold disc, dist2; cbn [fst snd]; lra|]. destruct p. cbn [fst snd]. f_equal; ring.
Qed.
Lemma lines_bounds (l : list (pt * pt)) b : boxes_box (map (fun l => line_box_round (fst l) (snd l) 0) l) = Some b -> bounds b (fun p => exists x, In x l /\ segment (fst x) (snd x) p).
Proof.
  intro B. assert (F : Forall2 bounds (map (fun l => line_box_round (fst l) (snd l) 0) l) (map (fun l => stroke (segment (fst l) (snd l)) (disc (0, 0) (0 / 2))) l)).
  { clear. induction l as [|x l IH]; cbn [map]; constructor; [|exact IH]. apply line_round_bounds. lra. }
  eapply bounds_ext; [|exact (boxes_bounds _ _ _ F B)]. intro p. split.
  - intros (s & J & P). apply in_map_iff in J as (x & <- & J). exists x. split; [exact J|]. now apply stroke_zero.
  - intros (x & J & P). exists (stroke (segment (fst x) (snd x)) (disc (0, 0) (0 / 2))). split; [apply in_map_iff; eauto|]. now apply stroke_zero.
Qed.
Lemma joined_lines : forall l from, joined from l = map (fun x => straight (fst x) (snd x)) (join_lines from l).
Proof. induction l as [|p l IH]; intro from; [reflexivity|]. cbn [joined join_lines map fst snd]. now rewrite IH. Qed.
Lemma shifted_lines c : forall l from, map (fun l => (shift c (fst l), shift c (snd l))) (join_lines from l) = join_lines (shift c from) (map (shift c) l).
Proof. induction l as [|p l IH]; intro from; [reflexivity|]. cbn [join_lines map fst snd]. now rewrite IH. Qed.
Lemma traced_lines l p : traced (map (fun x : pt * pt => straight (fst x) (snd x)) l) p <-> exists x, In x l /\ segment (fst x) (snd x) p.
Proof.
  split.
  - intros (f & t & J & T & ->). apply in_map_iff in J as (x & <- & J). exists x. split; [exact J|]. exists t. auto.
  - intros (x & J & t & T & ->). exists (straight (fst x) (snd x)), t. split; [apply in_map_iff; eauto|auto].
Qed.
Lemma hull_left points cs p q t : is_hull points cs -> In p cs -> In q cs -> 0 <= t <= 1 -> left_of_all cs (fst p + t * (fst q - fst p), snd p + t * (snd q - snd p)).
Proof.
  intros [G S _ _ _] P Q T u v UV. destruct (S u v p UV (G p P)) as [_ A]. destruct (S u v q UV (G q Q)) as [_ B]. unfold cross in *. cbn [fst snd].
  assert (K : 0 <= (1 - t) * ((fst v - fst u) * (snd p - snd u) - (snd v - snd u) * (fst p - fst u)) + t * ((fst v - fst u) * (snd q - snd u) - (snd v - snd u) * (fst q - fst u))).
  { apply Rplus_le_le_0_compat; apply Rmult_le_pos; lra. }
  lra.
Qed.
Lemma hull_inside points cs b : is_hull points cs -> (forall p, In p cs -> inside b p) -> encloses b (left_of_all cs).
Proof.
  intros [_ _ C _ _] I0 p L. destruct (C (1, 0) p L) as (c1 & J1 & L1), (C (-1, 0) p L) as (c2 & J2 & L2), (C (0, 1) p L) as (c3 & J3 & L3), (C (0, -1) p L) as (c4 & J4 & L4).
  pose proof (I0 c1 J1). pose proof (I0 c2 J2). pose proof (I0 c3 J3). pose proof (I0 c4 J4). unfold inside, along in *. cbn [fst snd] in *. lra.
Qed.
Lemma part_box c a : drawn_part a -> (forall on s l r, a = AOutline on s l r -> l <> [] /\ last l (0, 0)%Qc = s) -> (forall on n p d r, a = APolygon on n p d r -> (0 < n)%Z) ->
  exists x d, to_primitive a = Ok [x] /\ view_part c x = Ok d /\ bounds (bbox d) (part_extent c a).
Proof.
  intros F Ol Po. destruct a as [|on d p|?|on s l r|on n p d r|?|?|on w h q r|?|?]; try contradiction; cbn [drawn_part] in F.
  - do 2 eexists. split; [reflexivity|]. split; [reflexivity|]. cbn [bbox part_extent area]. rewrite placed_zero. apply circle_bounds. lra.
  - destruct (Ol _ _ _ _ eq_refl) as [N L]. set (f := fun p => rotate_point p (real r) (0, 0)). cbn [to_primitive]. unfold single, am_outline, outline_of. fold f.
    change (rotate_point (real_pt s) (real r) (0, 0)) with (f (real_pt s)).
    assert (Nl : map f (map real_pt l) <> []) by (destruct l; [congruence|discriminate]).
    assert (La : last (map f (map real_pt l)) (0, 0) = f (real_pt s)).
    { rewrite map_map. rewrite (last_map_any (fun p => f (real_pt p)) l _ (0, 0)%Qc N). now rewrite L. }
    assert (HL : forall z, snd (last (join_lines (f (real_pt s)) (map f (map real_pt l))) z) = f (real_pt s)) by (intro z; rewrite last_join by exact Nl; exact La).
    destruct (map f (map real_pt l)) as [|y ys] eqn:M; [congruence|]. cbn [join_lines]. change ((f (real_pt s), y) :: join_lines y ys) with (join_lines (f (real_pt s)) (y :: ys)). rewrite HL. cbn [fst].
    replace (pt_eqb (f (real_pt s)) (f (real_pt s))) with true by (symmetry; now apply pt_eqb_is). cbn [bind].
    exists (on, ShowOutline (join_lines (f (real_pt s)) (y :: ys))). cbn [view_part]. rewrite shifted_lines. destruct (boxes_box _) as [b|] eqn:B; [|discriminate B].
    eexists. split; [reflexivity|]. split; [reflexivity|]. cbn [bbox part_extent]. eapply bounds_ext; [|exact (lines_bounds _ _ B)]. intro p. rewrite <- traced_lines, <- joined_lines.
    assert (Mp : map (fun p => placed c (real r) (real_pt p)) l = map (shift c) (y :: ys)).
    { rewrite <- M, !map_map. apply map_ext. intro x. symmetry. apply placed_shift. }
    unfold CairoSpec.sides. rewrite Mp. rewrite (last_map_any (shift c) (y :: ys) _ (0, 0)) by discriminate. rewrite La. reflexivity.
  - destruct F as (D & O). pose proof (Po _ _ _ _ _ eq_refl) as N. exists (on, ShowPolygon (real_pt p) n (real d / 2) (real r)). cbn [to_primitive view_part]. unfold view_polygon.
    destruct (Z.eqb_spec n 0); [lia|]. eexists. split; [reflexivity|]. split; [reflexivity|]. cbn [bbox part_extent].
    replace (placed c (real r) (real_pt p)) with (shift c (real_pt p)); [apply polygon_box_disc; lra|].
    destruct O as [-> | ->].
    + unfold placed, shift, real_pt. cbn zeta. cbn [fst snd]. rewrite !real_0. f_equal; ring.
    + rewrite real_0. symmetry. apply placed_zero.
  - destruct F as (W & H & O). assert (O' : real_pt q = origin \/ real r = 0).
    { destruct O as [-> | ->]; [left; unfold real_pt, origin; cbn [fst snd]; now rewrite real_0|right; apply real_0]. }
    destruct (center_line_right (real_pt q) (real w) (real h) (real r) W H O') as (lines & E & L). rewrite center_line_is in E. apply ok_inj in E. injection E as E.
    set (pr := rotate_point (nth 3 (center_points (real_pt q) (real w) (real h)) (0, 0)) (real r) (real_pt q)) in *.
    assert (Co : corners lines = map (fun p => rotate_point p (real r) (real_pt q)) (center_points (real_pt q) (real w) (real h))) by (rewrite <- E; reflexivity).
    destruct (center_hull c (real_pt q) (real w) (real h) (real r) W H) as (points & Hu). rewrite <- Co in Hu.
    exists (on, ShowOutline lines). cbn [to_primitive view_part]. unfold single. rewrite center_line_is.
    set (lines' := map (fun l => (shift c (fst l), shift c (snd l))) lines). destruct (boxes_box (map (fun l => line_box_round (fst l) (snd l) 0) lines')) as [b|] eqn:B; [|unfold lines' in B; rewrite <- E in B; discriminate B].
    eexists. split; [exact (f_equal (fun l => Ok [(on, ShowOutline l)]) E)|]. split; [reflexivity|]. cbn [bbox part_extent area].
    apply (bounds_ext b (left_of_all (map (shift c) (corners lines)))); [intro p; rewrite left_shift; unfold moved; apply L|].
    assert (Ends : forall x, In x lines' -> In (fst x) (map (shift c) (corners lines)) /\ In (snd x) (map (shift c) (corners lines))).
    { intros x J. apply in_map_iff in J as (y & <- & J). cbn [fst snd]. split; apply in_map; [|now apply in_map]. rewrite Co. rewrite <- E in J. right. right. right. left. destruct J as [<-|[<-|[<-|[<-|[]]]]]; reflexivity. }
    apply (bounds_between b (fun p => exists x, In x lines' /\ segment (fst x) (snd x) p)); [now apply lines_bounds| |].
    + intros p (x & J & t & T0 & ->). destruct (Ends x J) as [A Z]. exact (hull_left points _ _ _ t Hu A Z T0).
    + apply (hull_inside points _ b Hu). rewrite <- shifted_corners. fold lines'. now apply outline_box_inside.
Qed.
Lemma parts_box c : forall ps prims, macro_is ps prims -> Forall drawn_part prims ->
  exists xs ds, mapM to_primitive prims = Ok (map (fun x => [x]) xs) /\ mapM (view_part c) xs = Ok ds /\ Forall2 bounds (map bbox ds) (map (part_extent c) prims).
Proof.
  induction 1 as [|y a ps prims (vs & E & M) H IH]; intro F; [exists [], []; repeat split; constructor|]. inversion F; subst.
  destruct (means_sound _ _ _ M) as [Ol Po]. destruct (part_box c a) as (x & d & T0 & V & K); [assumption|exact Ol|exact Po|].
  destruct IH as (xs & ds & T' & V' & K'); [assumption|]. exists (x :: xs), (d :: ds). cbn [mapM map]. rewrite T0, V. cbn [bind]. rewrite T', V'. cbn [bind].
  split; [reflexivity|]. split; [reflexivity|]. constructor; assumption.
Qed.
Lemma macro_box dk c ps prims : macro_is ps prims -> Forall drawn_part prims -> prims <> [] ->
  exists ds b, view_macro dk c ps = Ok (Group dk ds) /\ boxes_box (map bbox ds) = Some b /\ bounds b (flash_extent c (GerberEval.ShMacro ps)).
Proof.
  intros M F N. destruct (parts_box c ps prims M F) as (xs & ds & T0 & V & K). unfold view_macro. rewrite (macro_read ps prims M). cbn [bind]. unfold group_shapes. rewrite T0. cbn [bind]. rewrite concat_singles, V. cbn [bind].
  destruct (boxes_box (map bbox ds)) as [b|] eqn:B.
  - exists ds, b. split; [reflexivity|]. split; [exact B|]. eapply bounds_ext; [|exact (boxes_bounds _ _ _ K B)]. intro p. cbn [flash_extent]. split.
    + intros (s & J & P). apply in_map_iff in J as (a & <- & J). eauto.
    + intros (prims' & a & M' & J & P). rewrite (macro_unique _ _ _ M' M) in J. exists (part_extent c a). split; [now apply in_map|exact P].
  - exfalso. destruct prims; [congruence|]. destruct ds; [inversion K|discriminate B].
Qed.
Lemma prim_box_view h p m i b : deref h p = Some m -> fair m -> view h p = Ok i -> item_box i = Ok b -> prim_box h p = Ok b.
Proof.
  intros D F V B. assert (X : (do i <- view h p; item_box i) = Ok b) by (rewrite V; exact B). unfold prim_box. destruct p as [[a b0 [ap|] pol u|a b0 c d ap q pol u]|l pol u|ap]; try exact X.
  cbn [deref deref_seg deref_ap] in D. injection D as <-. cbn [fair] in F. destruct (GerberEval.fetch h ap) as [o|]; [|contradiction]. unfold line_pen in F. destruct o as [[| | | |] ? ? ?]; try exact X. contradiction.
Qed.
Lemma mark_box fill h p m (Se : sensible fill) : deref h p = Some m -> fair m -> (exists q, extent m q) -> exists i b, view h p = Ok i /\ prim_box h p = Ok b /\ bounds b (extent m).
Proof.
  intros D F N. destruct (macro_mark_dec m) as [M|M].
  - pose proof F as F0. pose proof D as D0. destruct m as [| |[[| | | |ps] pos pol u]]; cbn [macro_stamp GerberEval.o_shape] in M; try contradiction. destruct F as [P F]. cbn [GerberEval.o_pos] in P. destruct pos as [c|]; [|congruence].
    cbn [fair_flash GerberEval.o_shape] in F. destruct F as (Dk & prims & Mi & Fp).
    assert (Ne : prims <> []). { destruct N as (q & N). cbn [extent GerberEval.o_pos GerberEval.o_shape flash_extent] in N. destruct N as (pr & a & Mp & J & _). rewrite (macro_unique _ _ _ Mp Mi) in J. intros ->. destruct J. }
    destruct (macro_box (is_dark pol) (real_pt c) ps prims Mi (fair_drawn prims Fp) Ne) as (ds & b & V & B & Bo).
    assert (Vw : view h p = Ok (Group (is_dark pol) ds)).
    { destruct p as [s|l pol0 u0|ap]; [discriminate|discriminate|]. cbn [deref view] in *. destruct (GerberEval.fetch h ap) as [o|]; [|discriminate]. injection D as ->. exact V. }
    exists (Group (is_dark pol) ds), b. split; [exact Vw|]. split; [|exact Bo]. apply (prim_box_view h p _ _ b D0 F0 Vw). cbn [item_box]. now rewrite B.
  - destruct (single_box fill h p m Se M D F) as (d & V & B). exists (Single d), (bbox d). split; [exact V|]. split; [|exact B]. exact (prim_box_view h p m _ _ D F V eq_refl).
Qed.
Lemma marks_box fill h (Se : sensible fill) : forall l ms, map (deref h) l = map Some ms -> Forall fair ms -> Forall (fun m => exists q, extent m q) ms ->
  exists bs, mapM (prim_box h) l = Ok bs /\ Forall2 (fun b m => bounds b (extent m)) bs ms.
Proof.
  induction l as [|p l IH]; intros [|m ms] D F N; try discriminate; [exists []; split; [reflexivity|constructor]|]. cbn [map] in D. injection D as D1 D2. inversion F; subst. inversion N; subst.
  destruct (mark_box fill h p m Se D1) as (i & b & _ & B & Bo); [assumption|assumption|]. destruct (IH ms D2) as (bs & Bs & Bos); [assumption|assumption|]. exists (b :: bs). cbn [mapM]. rewrite B. cbn [bind]. rewrite Bs. cbn [bind]. split; [reflexivity|now constructor].
Qed.

(** What a mark covers is within the room it takes. *)
Lemma part_inside fill c a x (Se : sensible fill) : drawn_part a -> (forall on n p d r, a = APolygon on n p d r -> (0 < n)%Z) -> encloses x (part_extent c a) -> encloses x (area fill c a).
Proof.
  intros F Po E. destruct a as [|on d p|?|on s l r|on n p d r|?|?|on w h q r|?|?]; try contradiction; cbn [part_extent area] in *; try exact E.
  - now apply (s_inside _ Se).
  - destruct F as [D O]. pose proof (Po _ _ _ _ _ eq_refl) as N. apply (s_inside _ Se). apply sides_inside. intros q J. apply in_map_iff in J as (i & <- & _). apply E.
    assert (X : placed c (real r) (polygon_corner (real_pt p) n (real d) i) = polygon_vertex (placed c (real r) (real_pt p)) (Z.to_nat n) (real d / 2) (real r) i).
    { assert (O' : real_pt p = origin \/ real r = 0). { destruct O as [-> | ->]; [left; unfold real_pt, origin; cbn [fst snd]; now rewrite real_0|right; apply real_0]. }
      replace (placed c (real r) (real_pt p)) with (shift c (real_pt p)).
      - rewrite vertex_shift. rewrite (polygon_turned (real_pt p) n (real d) (real r) i N O'). unfold placed, shift. cbn zeta. cbn [fst snd]. f_equal; ring.
      - destruct O' as [-> | ->]; [unfold placed, shift, origin; cbn zeta; cbn [fst snd]; f_equal; ring|symmetry; apply placed_zero]. }
    rewrite X. apply vertex_disc. lra.
Qed.
Lemma mark_inside fill m x (Se : sensible fill) : fair m -> encloses x (extent m) -> encloses x (covers fill m).
Proof.
  intros F E. destruct m as [v|l pol u|o].
  - destruct v as [|a b [c|] d o q pol u]; exact E.
  - cbn [extent covers] in *. intros p (cs & G & P). revert p P. apply (s_inside _ Se). intros p P. apply E. eauto.
  - destruct F as [P F]. cbn [extent covers] in *. destruct (GerberEval.o_pos o) as [c|]; [|congruence]. destruct (GerberEval.o_shape o) as [d hd hw hh|w h0 hd hw hh|w h0 hd hw hh|n r rot hd hw hh|ps]; cbn [fair_flash flash_extent flashed] in *.
    + now apply with_holes_inside.
    + now apply with_holes_inside.
    + now apply with_holes_inside.
    + apply with_holes_inside. destruct F as (N & R & K). apply (s_inside _ Se). apply sides_inside. intros p J. rewrite <- vertices_regular in J. apply in_map_iff in J as (i & <- & _). apply E. now apply vertex_disc.
    + destruct F as (_ & prims & M & Fp). intros p (prims' & M' & Q). rewrite (macro_unique _ _ _ M' M) in Q. apply darkened_all in Q; [|intros a J; cbn [fst]; apply fair_exposed; rewrite Forall_forall in Fp; auto].
      destruct Q as (a & J & Q). cbn [snd] in Q. revert p Q. apply (part_inside fill (real_pt c) a x Se).
      * rewrite Forall_forall in Fp. exact (proj2 (Fp a J)).
      * destruct (forall2_right _ _ _ a M J) as (y & _ & vs & _ & Me). exact (proj2 (means_sound _ _ _ Me)).
      * intros p Q. apply E. eauto.
Qed.

(** ** Files *)
Lemma whole_size_is fill fc s l ms b : sensible fill -> 0 < s -> definitions_ok [] l -> image fc [] l = Some ms -> Forall fair ms -> Forall (fun m => exists q, extent m q) ms ->
  file_box ms b -> within 1000000 b -> whole_size fc s l = Ok (s * (snd (fst b) - fst (fst b)), s * (snd (snd b) - fst (snd b))).
Proof.
  intros Se S D Im F N B W. destruct (evaluates fc l ms D Im) as (st & l' & Ev). unfold whole_size. rewrite Ev. cbn [bind fst]. unfold whole_context.
  destruct (proj2 (GerberEvalProofs.evaluate_image fc l [] GerberEval.g_init st l' (GerberEvalProofs.inv_init fc) Ev)) as (ms' & Im' & Sh). assert (ms' = ms) by congruence. subst ms'.
  destruct (marks_box fill (GerberEval.g_store st) Se (GerberEval.g_prims st) ms Sh F N) as (bs & Bs & Bo). rewrite Bs. cbn [bind]. rewrite (whole_is extent bs ms b Bo B W).
  destruct B as [En ((p & P & _) & _)]. pose proof (En p P) as I0. unfold inside in I0. unfold size_px, scale_point. cbn [set_bounds size scale fst snd]. rewrite !Rabs_right by lra. f_equal. f_equal; ring.
Qed.
Lemma empty_size fc s l : definitions_ok [] l -> image fc [] l = Some [] -> whole_size fc s l = Ok (s * 2000000, s * 2000000).
Proof.
  intros D Im. destruct (evaluates fc l [] D Im) as (st & l' & Ev). unfold whole_size. rewrite Ev. cbn [bind fst]. unfold whole_context.
  destruct (proj2 (GerberEvalProofs.evaluate_image fc l [] GerberEval.g_init st l' (GerberEvalProofs.inv_init fc) Ev)) as (ms' & Im' & Sh). assert (ms' = []) by congruence. subst ms'.
  cbn [map] in Sh. change (shown GerberEval.g_init ++ []) with (@nil (option mark)) in Sh. unfold shown in Sh. apply map_eq_nil in Sh. rewrite Sh. cbn [mapM bind].
  unfold size_px, scale_point, whole_box. cbn [fold_left set_bounds size scale fst snd]. rewrite Rabs_left by lra. f_equal. f_equal; ring.
Qed.
Lemma box_order b s : bounds b s -> fst (fst b) <= snd (fst b) /\ fst (snd b) <= snd (snd b).
Proof. intros [E ((p & P & _) & _)]. pose proof (E p P) as I0. unfold inside in I0. lra. Qed.
Lemma whole_unfold fill fc s inv l st l' ms b (Se : sensible fill) : GerberEval.evaluate_all fc GerberEval.g_init l = Ok (st, l') -> image fc [] l = Some ms -> Forall fair ms -> Forall (fun m => exists q, extent m q) ms ->
  file_box ms b -> within 1000000 b -> render_whole fill fc s inv l = render_file fill s b inv false (GerberEval.g_store st) (GerberEval.g_prims st).
Proof.
  intros Ev Im F N B W. unfold render_whole. rewrite Ev. cbn [bind fst]. unfold render_prims, whole_context.
  destruct (proj2 (GerberEvalProofs.evaluate_image fc l [] GerberEval.g_init st l' (GerberEvalProofs.inv_init fc) Ev)) as (ms' & Im' & Sh). assert (ms' = ms) by congruence. subst ms'.
  destruct (marks_box fill (GerberEval.g_store st) Se (GerberEval.g_prims st) ms Sh F N) as (bs & Bs & Bo). rewrite Bs. cbn [bind]. rewrite (whole_is extent bs ms b Bo B W). reflexivity.
Qed.
Lemma whole_shown fill fc s l ms b : sensible fill -> 0 < s -> definitions_ok [] l -> image fc [] l = Some ms -> Forall fair ms -> Forall (fun m => exists q, extent m q) ms ->
  file_box ms b -> within 1000000 b ->
  exists img, render_whole fill fc s false l = Ok img /\ forall p, below_tops fill s ms p -> (img (pixel s b false p) <-> shows fill ms p).
Proof.
  intros Se S D Im F N B W. destruct (evaluates fc l ms D Im) as (st & l' & E). rewrite (whole_unfold fill fc s false l st l' ms b Se E Im F N B W).
  destruct (box_order b _ B) as [X Y]. destruct (file_shown fill Se fc l st l' ms s b false E Im F S X Y) as (img & R & H). exists img. split; [exact R|]. intros p T. split.
  - intro I0. apply H; [|exact T|exact I0]. unfold render_file in R. destruct (mapM _ _) as [items|]; [|discriminate]. cbn [bind] in R. exact (in_bounds fill b s false false items img p S X Y R I0).
  - intro Sh. apply H; [|exact T|exact Sh]. destruct Sh as (m1 & m & m2 & -> & _ & C & _). destruct B as [En _].
    assert (J : In m (m1 ++ m :: m2)) by (apply in_or_app; right; now left). rewrite Forall_forall in F. refine (mark_inside fill m b Se (F m J) _ p C). intros q Q. apply En. eauto.
Qed.
Lemma whole_inverted fill fc s l ms b : sensible fill -> 0 < s -> definitions_ok [] l -> image fc [] l = Some ms -> Forall fair ms -> Forall solid_mark ms -> Forall (fun m => exists q, extent m q) ms ->
  file_box ms b -> within 1000000 b ->
  exists img, render_whole fill fc s true l = Ok img /\ forall p, inside b p -> below_tops fill s ms p -> (img (pixel s b false p) <-> ~ shows fill ms p).
Proof.
  intros Se S D Im F So N B W. destruct (evaluates fc l ms D Im) as (st & l' & E). rewrite (whole_unfold fill fc s true l st l' ms b Se E Im F N B W).
  destruct (box_order b _ B) as [X Y]. now apply (file_inverted fill Se fc l st l').
Qed.
