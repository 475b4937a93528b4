(** Lemmas about the shapes of aperture macro primitives. *)
From Verif Require Import PyBase GeomModel GeomSpec GeomProofs HullModel HullSpec HullProofs AmModel MacroGeomModel MacroGeomSpec.
From Coq Require Import QArith Qcanon Qreals Lia Lra Reals.
Import ListNotations.
Open Scope R_scope.
Open Scope list_scope.

Lemma rad rot : radians rot = rot * PI / 180.
Proof. unfold radians. field. Qed.
Lemma rotate_is p rot c : rotate_point p rot c =
  (fst c + (cos (rot * PI / 180) * (fst p - fst c) - sin (rot * PI / 180) * (snd p - snd c)),
   snd c + (sin (rot * PI / 180) * (fst p - fst c) + cos (rot * PI / 180) * (snd p - snd c))).
Proof. unfold rotate_point. cbn zeta. rewrite rad. f_equal; ring. Qed.
Definition unrotate (p : pt) (rot : R) (c : pt) : pt := rotate_point p (- rot) c.
Lemma unrotate_rotate p rot c : rotate_point (unrotate p rot c) rot c = p.
Proof.
  unfold unrotate. rewrite !rotate_is. cbn [fst snd]. replace (- rot * PI / 180) with (- (rot * PI / 180)) by field. rewrite cos_neg, sin_neg.
  pose proof (sc2 (rot * PI / 180)) as E. set (C := cos _) in *. set (S := sin _) in *. destruct p as [x y]. cbn [fst snd]. f_equal.
  - transitivity (fst c + (S * S + C * C) * (x - fst c)); [ring|rewrite E; ring].
  - transitivity (snd c + (S * S + C * C) * (y - snd c)); [ring|rewrite E; ring].
Qed.
Lemma rotate_inj p q rot c : rotate_point p rot c = rotate_point q rot c -> p = q.
Proof.
  rewrite !rotate_is. intro E. injection E as E1 E2. pose proof (sc2 (rot * PI / 180)) as Q. set (C := cos _) in *. set (S := sin _) in *.
  assert (X : C * (fst p - fst q) - S * (snd p - snd q) = 0) by lra. assert (Y : S * (fst p - fst q) + C * (snd p - snd q) = 0) by lra.
  assert (X' : (S * S + C * C) * (fst p - fst q) = 0) by (transitivity (C * (C * (fst p - fst q) - S * (snd p - snd q)) + S * (S * (fst p - fst q) + C * (snd p - snd q))); [ring|rewrite X, Y; ring]).
  assert (Y' : (S * S + C * C) * (snd p - snd q) = 0) by (transitivity (C * (S * (fst p - fst q) + C * (snd p - snd q)) - S * (C * (fst p - fst q) - S * (snd p - snd q))); [ring|rewrite X, Y; ring]).
  rewrite Q in X', Y'. destruct p, q. cbn [fst snd] in *. f_equal; lra.
Qed.
Lemma cross_rotate u v p rot c : cross (rotate_point u rot c) (rotate_point v rot c) (rotate_point p rot c) = cross u v p.
Proof.
  rewrite !rotate_is. unfold cross. cbn [fst snd]. pose proof (sc2 (rot * PI / 180)) as E. set (C := cos _) in *. set (S := sin _) in *.
  transitivity ((S * S + C * C) * cross u v p); [unfold cross; ring|rewrite E; unfold cross; ring].
Qed.
Lemma sides_map (f : pt -> pt) l u v : In (u, v) (sides (map f l)) <-> exists u' v', In (u', v') (sides l) /\ u = f u' /\ v = f v'.
Proof.
  destruct l as [|p r]; [cbn; split; [tauto|intros (?&?&[]&_)]|]. unfold sides. cbn [map].
  replace (map f r ++ [f p]) with (map f (r ++ [p])) by (rewrite map_app; reflexivity). change (f p :: map f r) with (map f (p :: r)).
  generalize (p :: r), (r ++ [p]). intros a b. revert b. induction a as [|x a IH]; intros [|y b]; cbn [map combine In]; try (split; [tauto|intros (?&?&[]&_)]).
  rewrite IH. split.
  - intros [E|(u' & v' & H & E)]; [injection E as <- <-; exists x, y; auto|exists u', v'; tauto].
  - intros (u' & v' & [E|H] & -> & ->); [injection E as <- <-; now left|right; exists u', v'; auto].
Qed.
Lemma left_rotate l rot c p : left_of_all (map (fun q => rotate_point q rot c) l) p <-> left_of_all l (unrotate p rot c).
Proof.
  unfold left_of_all. split.
  - intros H u v S. rewrite <- (cross_rotate u v _ rot c), unrotate_rotate. apply H. apply sides_map. exists u, v. auto.
  - intros H u v S. apply sides_map in S. destruct S as (u' & v' & S & -> & ->). rewrite <- (unrotate_rotate p rot c), cross_rotate. now apply H.
Qed.
Lemma turned_is c rot s p : turned c rot s p <-> s (fst (unrotate p rot c) - fst c, snd (unrotate p rot c) - snd c).
Proof.
  unfold turned. split.
  - intros (q & Q & ->). replace (_, _) with q; [exact Q|]. unfold unrotate. rewrite rotate_is. cbn [fst snd]. replace (- rot * PI / 180) with (- (rot * PI / 180)) by field. rewrite cos_neg, sin_neg.
    pose proof (sc2 (rot * PI / 180)) as E. set (C := cos _) in *. set (S := sin _) in *. destruct q as [x y]. cbn [fst snd]. f_equal.
    + transitivity ((S * S + C * C) * x); [rewrite E; ring|ring].
    + transitivity ((S * S + C * C) * y); [rewrite E; ring|ring].
  - intro H. eexists. split; [exact H|]. cbn [fst snd]. transitivity (rotate_point (unrotate p rot c) rot c); [symmetry; apply unrotate_rotate|]. apply rotate_is.
Qed.

(** ** Closed contours *)
Lemma pt_eqb_is p q : pt_eqb p q = true <-> p = q.
Proof.
  unfold pt_eqb. rewrite andb_true_iff. destruct p, q. cbn [fst snd]. split.
  - intros [A B]. bools. now subst.
  - intro E. injection E as -> ->. split; apply eqb_r.
Qed.
Lemma last_map {A B} (f : A -> B) l d : last (map f l) (f d) = f (last l d).
Proof. induction l as [|x l IH]; [reflexivity|]. cbn [map last]. destruct l; [reflexivity|exact IH]. Qed.
Lemma last_map_any {A B} (f : A -> B) l d d' : l <> [] -> last (map f l) d = f (last l d').
Proof. induction l as [|x l IH]; [congruence|]. intros _. cbn [map last]. destruct l; [reflexivity|]. apply IH. discriminate. Qed.
Lemma spokes_closed (f : pt -> pt) l : l <> [] ->
  outline_of (map (fun p => (f (last l (0, 0)), f p)) l) = Ok (ShowOutline (map (fun p => (f (last l (0, 0)), f p)) l)).
Proof.
  intro N. unfold outline_of. destruct l as [|x r] eqn:E; [congruence|]. rewrite <- E. destruct (map (fun p => (f (last l (0, 0)), f p)) l) as [|y s] eqn:M; [subst; discriminate|].
  replace (pt_eqb (fst y) (snd (last (y :: s) y))) with true; [reflexivity|]. symmetry. apply pt_eqb_is.
  assert (Y : y = (f (last l (0, 0)), f x)) by (rewrite E in M |- *; injection M as <- _; reflexivity).
  rewrite <- M. rewrite Y at 2. rewrite (last_map (fun p => (f (last l (0, 0)), f p)) l x). rewrite Y. cbn [fst snd]. f_equal. subst l. clear. revert x. induction r as [|z r IH]; intro x; [reflexivity|]. cbn [last] in *. destruct r; [reflexivity|apply IH].
Qed.

(** ** Centre lines *)
Lemma center_box c w h p : 0 < w -> 0 < h -> left_of_all (center_points c w h) p <-> moved c (oblong w h) p.
Proof.
  intros W H. destruct c as [x y], p as [a b]. unfold left_of_all, center_points, moved, oblong, sides, cross. cbn [app combine In fst snd]. split.
  - intro L. pose proof (L _ _ (or_introl eq_refl)) as L1. pose proof (L _ _ (or_intror (or_introl eq_refl))) as L2.
    pose proof (L _ _ (or_intror (or_intror (or_introl eq_refl)))) as L3. pose proof (L _ _ (or_intror (or_intror (or_intror (or_introl eq_refl))))) as L4.
    cbn [fst snd] in *. clear L. assert (forall k z, 0 < k -> 0 <= k * z -> 0 <= z) by (intros; nra).
    assert (0 <= a - (x - w / 2)) by (apply (H0 h); [exact H|nra]). assert (0 <= b - (y - h / 2)) by (apply (H0 w); [exact W|nra]).
    assert (0 <= (x + w / 2) - a) by (apply (H0 h); [exact H|nra]). assert (0 <= (y + h / 2) - b) by (apply (H0 w); [exact W|nra]). lra.
  - intros L u v. assert (0 <= h * (a - (x - w / 2)) /\ 0 <= w * (b - (y - h / 2)) /\ 0 <= h * ((x + w / 2) - a) /\ 0 <= w * ((y + h / 2) - b)).
    { repeat split; apply Rmult_le_pos; lra. }
    intros [E|[E|[E|[E|[]]]]]; injection E as <- <-; cbn [fst snd]; lra.
Qed.
Lemma center_line_is c w h rot : center_line c w h rot = Ok (ShowOutline (map (fun p => (rotate_point (nth 3 (center_points c w h) (0, 0)) rot c, rotate_point p rot c)) (center_points c w h))).
Proof.
  unfold center_line. cbn zeta. destruct c as [x y]. change (nth 3 (center_points (x, y) w h) (0, 0)) with (last (center_points (x, y) w h) (0, 0)).
  apply (spokes_closed (fun p => rotate_point p rot (x, y))). discriminate.
Qed.
Lemma center_line_drawn c w h rot : 0 < w -> 0 < h -> exists lines, center_line c w h rot = Ok (ShowOutline lines) /\
  forall p, left_of_all (corners lines) p <-> turned c rot (oblong w h) p.
Proof.
  intros W H. eexists. split; [apply center_line_is|]. intro p. unfold corners. rewrite map_map. cbn [snd]. rewrite left_rotate, center_box by assumption. rewrite turned_is. reflexivity.
Qed.
Lemma center_line_right c w h rot : 0 < w -> 0 < h -> c = origin \/ rot = 0 -> exists lines, center_line c w h rot = Ok (ShowOutline lines) /\
  forall p, left_of_all (corners lines) p <-> center_line_area c w h rot p.
Proof.
  intros W H O. destruct (center_line_drawn c w h rot W H) as (lines & E & L). exists lines. split; [exact E|]. intro p. rewrite L. unfold center_line_area. rewrite !turned_is. unfold moved. cbn [fst snd].
  assert (X : unrotate p rot c = (fst (unrotate p rot origin), snd (unrotate p rot origin))).
  { rewrite <- surjective_pairing. destruct O as [->| ->]; [reflexivity|]. unfold unrotate. rewrite !rotate_is. replace (- 0 * PI / 180) with 0 by field. rewrite cos_0, sin_0. unfold origin. cbn [fst snd]. f_equal; ring. }
  rewrite X. unfold origin. cbn [fst snd]. rewrite !Rminus_0_r. reflexivity.
Qed.

(** ** Outlines *)
Lemma join_lines_joins p l : joins p l (join_lines p l).
Proof. revert p. induction l as [|q r IH]; intro p; constructor. apply IH. Qed.
Lemma joins_corners p l lines : joins p l lines -> corners lines = l.
Proof. induction 1 as [|p q r l J IH]; [reflexivity|]. cbn [corners map snd]. f_equal. exact IH. Qed.
Lemma rotate_origin p rot : turn rot p (rotate_point p rot (0, 0)).
Proof. unfold turn. cbn zeta. rewrite rotate_is. cbn [fst snd]. f_equal; ring. Qed.
Lemma last_join p l d : l <> [] -> snd (last (join_lines p l) d) = last l (0, 0).
Proof.
  revert p d. induction l as [|q r IH]; intros p d N; [congruence|]. cbn [join_lines]. destruct r as [|z r]; [reflexivity|]. change (last (q :: z :: r) (0, 0)) with (last (z :: r) (0, 0)).
  rewrite <- (IH q d) by discriminate. cbn [join_lines last]. destruct (join_lines z r); reflexivity.
Qed.
Lemma outline_drawn start points rot : points <> [] -> last points (0, 0) = start ->
  exists start' points' lines, am_outline start points rot = Ok (ShowOutline lines) /\ turn rot start start' /\ Forall2 (turn rot) points points' /\ joins start' points' lines.
Proof.
  intros N E. exists (rotate_point start rot (0, 0)), (map (fun p => rotate_point p rot (0, 0)) points). eexists. split; [|split; [apply rotate_origin|split; [|apply join_lines_joins]]].
  - unfold am_outline, outline_of. destruct points as [|q r]; [congruence|]. cbn [map join_lines].
    set (l := join_lines _ _). replace (pt_eqb _ _) with true; [reflexivity|]. symmetry. apply pt_eqb_is. cbn [fst].
    pose proof (last_join (rotate_point start rot (0, 0)) (map (fun p => rotate_point p rot (0, 0)) (q :: r)) (rotate_point start rot (0, 0), rotate_point q rot (0, 0)) ltac:(discriminate)) as L.
    cbn [map join_lines] in L. fold l in L. rewrite L.
    change (rotate_point q rot (0, 0) :: map (fun p => rotate_point p rot (0, 0)) r) with (map (fun p => rotate_point p rot (0, 0)) (q :: r)).
    rewrite (last_map_any (fun p => rotate_point p rot (0, 0)) (q :: r) (0, 0) (0, 0)) by discriminate. apply (f_equal (fun p => rotate_point p rot (0, 0))). symmetry. exact E.
  - clear. induction points as [|p r IH]; constructor; [apply rotate_origin|exact IH].
Qed.
Lemma outline_open start points rot : points <> [] -> last points (0, 0) <> start -> am_outline start points rot = Err ValueError.
Proof.
  intros N E. unfold am_outline, outline_of. destruct points as [|q r]; [congruence|]. cbn [map join_lines].
  set (l := join_lines _ _). destruct (pt_eqb _ _) eqn:Q; [|reflexivity]. exfalso. apply pt_eqb_is in Q. cbn [fst] in Q.
  pose proof (last_join (rotate_point start rot (0, 0)) (map (fun p => rotate_point p rot (0, 0)) (q :: r)) (rotate_point start rot (0, 0), rotate_point q rot (0, 0)) ltac:(discriminate)) as L.
  cbn [map join_lines] in L. fold l in L. rewrite L in Q.
  change (rotate_point q rot (0, 0) :: map (fun p => rotate_point p rot (0, 0)) r) with (map (fun p => rotate_point p rot (0, 0)) (q :: r)) in Q.
  rewrite (last_map_any (fun p => rotate_point p rot (0, 0)) (q :: r) (0, 0) (0, 0)) in Q by discriminate. apply E. symmetry. exact (rotate_inj _ _ _ _ Q).
Qed.

(** ** Vector lines *)
Lemma last_any {A} (l : list A) a b : l <> [] -> last l a = last l b.
Proof. induction l as [|x r IH]; intro N; [congruence|]. destruct r as [|y r']; [reflexivity|]. apply IH. discriminate. Qed.
Lemma vector_line_drawn s e w rot : 0 < w -> exists lines, vector_line s e w rot = Ok (ShowOutline lines) /\
  forall p, left_of_all (corners lines) p <-> turned origin rot (stroke (segment s e) (oblong w w)) p.
Proof.
  intro W. destruct (line_sweep s e w w W W) as (v & E & HH & R0).
  assert (N : v <> []). { intros ->. assert (Q : forall u v : pt, In (u, v) (sides []) -> 0 <= cross u v (0, 0)) by (intros ? ? X; destruct X). destruct (hull_covers _ _ HH (0, 0) (0, 0) Q) as (c & X & _). destruct X. }
  unfold vector_line. rewrite E. cbn [bind]. destruct v as [|p0 v'] eqn:Ev; [congruence|]. rewrite <- Ev in *.
  assert (L0 : last v p0 = last v (0, 0)). { now apply last_any. }
  rewrite L0. eexists. split; [apply (spokes_closed (fun p => rotate_point p rot (0, 0)) v N)|]. intro p. unfold corners. rewrite map_map. cbn [snd]. rewrite left_rotate, turned_is.
  unfold left_of_all. rewrite <- R0. unfold origin. cbn [fst snd]. rewrite !Rminus_0_r. rewrite <- surjective_pairing. reflexivity.
Qed.
Lemma unit_le x y l : 0 < l -> l * l = x * x + y * y -> -1 <= x / l <= 1.
Proof.
  intros L E. assert (x * x <= l * l) by nra. assert (Q : - l <= x <= l) by nra. split.
  - apply Rmult_le_reg_r with l; [exact L|]. replace (x / l * l) with x by (field; lra). lra.
  - apply Rmult_le_reg_r with l; [exact L|]. replace (x / l * l) with x by (field; lra). lra.
Qed.
Lemma dist_len s e : s <> e -> let l := sqrt (dist2 s e) in 0 < l /\ l * l = (fst e - fst s) * (fst e - fst s) + (snd e - snd s) * (snd e - snd s).
Proof.
  intros N l. assert (Q : dist2 s e = (fst e - fst s) * (fst e - fst s) + (snd e - snd s) * (snd e - snd s)) by (unfold dist2; ring).
  pose proof (sq_pos _ _ (pt_ne _ _ N)) as P. unfold l. split; [apply sqrt_lt_R0; lra|]. rewrite sqrt_sqrt by lra. exact Q.
Qed.
Lemma ribbon_in_sweep s e w p : 0 < w -> s <> e -> ribbon s e w p -> stroke (segment s e) (oblong w w) p.
Proof.
  intros W N (t & k & T0 & K0 & ->). destruct (dist_len s e N) as [L E]. set (l := sqrt (dist2 s e)) in *. clearbody l. cbn zeta.
  exists (fst s + t * (fst e - fst s), snd s + t * (snd e - snd s)), (- (k * ((snd e - snd s) / l)), k * ((fst e - fst s) / l)).
  split; [exists t; auto|]. pose proof (unit_le (fst e - fst s) (snd e - snd s) l L E) as X. pose proof (unit_le (snd e - snd s) (fst e - fst s) l L ltac:(lra)) as Y.
  set (x := (fst e - fst s) / l) in *. set (y := (snd e - snd s) / l) in *. clearbody x y. split; [|cbn [fst snd]; f_equal; ring]. unfold oblong. cbn [fst snd]. repeat split; nra.
Qed.
Lemma ribbon_ends s e w p : s <> e -> ribbon s e w p -> (fst p - fst s) * (fst e - fst s) + (snd p - snd s) * (snd e - snd s) <= (fst e - fst s) * (fst e - fst s) + (snd e - snd s) * (snd e - snd s).
Proof.
  intros N (t & k & T0 & _ & ->). destruct (dist_len s e N) as [L E]. set (l := sqrt (dist2 s e)) in *. clearbody l. cbn zeta. cbn [fst snd].
  set (dx := fst e - fst s) in *. set (dy := snd e - snd s) in *.
  replace (_ + _) with (t * (dx * dx + dy * dy)) by (field; lra). pose proof (sq_pos _ _ (pt_ne _ _ N)) as P. fold dx dy in P. nra.
Qed.
Lemma sweep_beyond s e w : 0 < w -> s <> e -> exists p, stroke (segment s e) (oblong w w) p /\ ~ ribbon s e w p.
Proof.
  intros W N. set (a := fun z => if Rle_dec 0 z then 1 else -1). set (dx := fst e - fst s). set (dy := snd e - snd s).
  assert (A : forall z, -1 <= a z <= 1 /\ 0 <= a z * z /\ (z <> 0 -> 0 < a z * z)) by (intro z; unfold a; destruct (Rle_dec 0 z); repeat split; try lra; intro; lra).
  destruct (A dx) as (X1 & X2 & X3), (A dy) as (Y1 & Y2 & Y3). clearbody a.
  exists (fst e + a dx * (w / 2), snd e + a dy * (w / 2)). split.
  - exists e, (a dx * (w / 2), a dy * (w / 2)). split; [exists 1; split; [lra|destruct e; cbn [fst snd]; f_equal; ring]|]. split; [|reflexivity]. unfold oblong. cbn [fst snd]. repeat split; nra.
  - intro Q. apply (ribbon_ends s e w) in Q; [|exact N]. cbn [fst snd] in Q.
    assert (0 < a dx * dx + a dy * dy) by (destruct (pt_ne _ _ N) as [Z|Z]; [apply X3 in Z|apply Y3 in Z]; lra).
    assert (0 < (a dx * dx + a dy * dy) * (w / 2)) by (apply Rmult_lt_0_compat; lra).
    replace (_ + _) with ((dx * dx + dy * dy) + (a dx * dx + a dy * dy) * (w / 2)) in Q by (unfold dx, dy; ring). fold dx dy in Q. lra.
Qed.
Lemma turned_mono c rot (s t : shape) p : (forall q, s q -> t q) -> turned c rot s p -> turned c rot t p.
Proof. intros H (q & Q & E). exists q. auto. Qed.
Lemma vector_line_covers s e w rot : 0 < w -> s <> e -> exists lines, vector_line s e w rot = Ok (ShowOutline lines) /\
  (forall p, left_of_all (corners lines) p <-> turned origin rot (stroke (segment s e) (oblong w w)) p) /\
  (forall p, vector_line_area s e w rot p -> left_of_all (corners lines) p) /\
  exists p, left_of_all (corners lines) p /\ ~ vector_line_area s e w rot p.
Proof.
  intros W N. destruct (vector_line_drawn s e w rot W) as (lines & E & L). exists lines. split; [exact E|]. split; [exact L|]. split.
  - intros p P. apply L. unfold vector_line_area in P. revert P. apply turned_mono. intro q. now apply ribbon_in_sweep.
  - destruct (sweep_beyond s e w W N) as (q & Q & R0). exists (rotate_point q rot origin). rewrite L, turned_is. unfold vector_line_area. rewrite turned_is.
    assert (U : unrotate (rotate_point q rot origin) rot origin = q) by (apply (rotate_inj _ _ rot origin); apply unrotate_rotate).
    rewrite U. unfold origin. cbn [fst snd]. rewrite !Rminus_0_r, <- surjective_pairing. auto.
Qed.

(** ** Polygons *)
Lemma polygon_turned c n d rot i : (0 < n)%Z -> c = origin \/ rot = 0 -> turn rot (polygon_corner c n d i) (polygon_vertex c (Z.to_nat n) (d / 2) rot i).
Proof.
  intros N O. unfold turn, polygon_corner, polygon_vertex. rewrite rotate_is. cbn [fst snd].
  rewrite INR_IZR_INZ, Z2Nat.id by lia. assert (NR : 0 < IZR n) by (now apply IZR_lt). set (k := IZR n) in *. set (x := INR i) in *. cbn zeta. cbn [fst snd].
  replace ((rot + 360 / k * x) * PI / 180) with (rot * PI / 180 + 2 * PI * x / k) by (field; lra). rewrite cos_plus, sin_plus.
  destruct O as [->| ->].
  - unfold origin. cbn [fst snd]. f_equal; ring.
  - replace (0 * PI / 180) with 0 by field. rewrite cos_0, sin_0. f_equal; ring.
Qed.

(** ** Thermals *)
Lemma leb_t x y : GeomModel.leb x y = true <-> x <= y.
Proof. unfold GeomModel.leb. destruct (Rle_dec x y); split; intro; first [assumption|discriminate|contradiction|reflexivity]. Qed.
Lemma asin_ok x : 0 <= x -> 2 * (x * x) <= 1 -> py_asin x = Ok (asin x) /\ 0 <= asin x <= PI / 4 /\ sin (asin x) = x.
Proof.
  intros P Q. assert (B : -1 <= x <= 1) by nra. pose proof PI_RGT_0 as PP. split.
  - unfold py_asin. replace (GeomModel.leb (-1) x && GeomModel.leb x 1)%bool with true; [reflexivity|]. symmetry. apply andb_true_iff. split; apply leb_t; lra.
  - pose proof (asin_bound x) as AB. assert (S : sin (asin x) = x) by (apply sin_asin; lra). split; [|exact S]. split.
    + destruct (Rle_dec 0 (asin x)) as [?|N]; [assumption|]. exfalso. assert (sin (asin x) < 0); [|lra]. rewrite <- (Ropp_involutive (asin x)), sin_neg. pose proof (sin_gt_0 (- asin x)). lra.
    + destruct (Rle_dec (asin x) (PI / 4)) as [?|N]; [assumption|]. exfalso. assert (sin (PI / 4) < sin (asin x)) by (apply sin_increasing_1; lra). rewrite S, sin_PI4 in H.
      assert (0 < sqrt 2) by (apply sqrt_lt_R0; lra). assert (sqrt 2 * sqrt 2 = 2) by (apply sqrt_sqrt; lra).
      assert (1 / sqrt 2 * sqrt 2 = 1) by (field; lra). assert (x * sqrt 2 <= 1) by nra. nra.
Qed.
Lemma asin_div gap r : 0 <= gap -> 0 < r -> 2 * (gap * gap) <= r * r -> exists a, (do q <- py_div (gap / 2) (r / 2); py_asin q) = Ok a /\ 0 <= a <= PI / 4 /\ r / 2 * sin a = gap / 2.
Proof.
  intros G P Q. unfold py_div, HullModel.eqb. destruct (Req_EM_T (r / 2) 0) as [?|_]; [lra|]. cbn [bind].
  assert (E : gap / 2 / (r / 2) = gap * / r) by (field; lra). pose proof (Rinv_0_lt_compat r P) as I0. assert (I1 : r * / r = 1) by (field; lra). set (i := / r) in *.
  assert (X : 0 <= gap / 2 / (r / 2)) by (rewrite E; nra). assert (Y : 2 * ((gap / 2 / (r / 2)) * (gap / 2 / (r / 2))) <= 1).
  { rewrite E. replace (2 * (gap * i * (gap * i))) with ((2 * (gap * gap)) * (i * i)) by ring. replace 1 with ((r * r) * (i * i)); [apply Rmult_le_compat_r; nra|]. replace (r * r * (i * i)) with ((r * i) * (r * i)) by ring. rewrite I1. ring. }
  destruct (asin_ok _ X Y) as (A & B & C). exists (asin (gap / 2 / (r / 2))). split; [exact A|]. split; [exact B|]. rewrite C. field. lra.
Qed.
(** Points of an arc, by their angle before turning. *)
Lemma arc_points_are a b rad r c p : In p (arc_points (a + rad) (b + rad) r c) <-> exists i, (i < 11)%nat /\ let t := a + (b - a) / 10 * INR i in p = (fst c + cos (t + rad) * r, snd c + sin (t + rad) * r).
Proof.
  unfold arc_points. rewrite in_map_iff. split.
  - intros (i & <- & I0). apply in_seq in I0. exists i. split; [lia|]. cbn zeta. replace (a + rad + (b + rad - (a + rad)) / 10 * INR i) with (a + (b - a) / 10 * INR i + rad) by field. reflexivity.
  - intros (i & I0 & ->). exists i. split; [|apply in_seq; lia]. cbn zeta. replace (a + rad + (b + rad - (a + rad)) / 10 * INR i) with (a + (b - a) / 10 * INR i + rad) by field. reflexivity.
Qed.
Lemma step_between a b i : a <= b -> (i < 11)%nat -> a <= a + (b - a) / 10 * INR i <= b.
Proof.
  intros L I0. assert (0 <= INR i) by apply pos_INR. assert (INR i <= 10). { replace 10 with (INR 10) by (cbn; ring). apply le_INR. lia. }
  assert (0 <= (b - a) / 10) by lra. split; nra.
Qed.
Lemma closed_shape (l : list pt) (f : pt -> pt) : l <> [] -> let points := l ++ [nth 0 l (0, 0)] in
  exists lines, outline_of (map (fun x => (f (nth 0 points (0, 0)), f x)) (tl points)) = Ok (ShowOutline lines) /\ forall c, In c (corners lines) <-> exists x, In x l /\ c = f x.
Proof.
  intros N points. destruct l as [|x r]; [congruence|]. unfold points. cbn [nth app tl].
  assert (N' : r ++ [x] <> []) by (destruct r; discriminate). assert (L0 : last (r ++ [x]) (0, 0) = x) by apply last_last.
  pose proof (spokes_closed f (r ++ [x]) N') as S. unfold pt in *. rewrite L0 in S. eexists. split; [exact S|]. intro c. unfold corners. rewrite map_map. cbn [snd]. rewrite in_map_iff. split.
  - intros (y & <- & Y). exists y. split; [|reflexivity]. apply in_app_or in Y as [Y|[<-|[]]]; [right; exact Y|left; reflexivity].
  - intros (y & Y & ->). exists y. split; [reflexivity|]. apply in_or_app. destruct Y as [<-|Y]; [right; left; reflexivity|left; exact Y].
Qed.
Lemma rotate_polar p rot k t r : rotate_point (fst p + cos (t + radians rot) * r, snd p + sin (t + radians rot) * r) k p =
  (fst p + (cos ((rot + k) * PI / 180) * (r * cos t) - sin ((rot + k) * PI / 180) * (r * sin t)), snd p + (sin ((rot + k) * PI / 180) * (r * cos t) + cos ((rot + k) * PI / 180) * (r * sin t))).
Proof.
  rewrite rotate_is. cbn [fst snd]. rewrite rad. replace ((rot + k) * PI / 180) with (rot * PI / 180 + k * PI / 180) by field. rewrite !cos_plus, !sin_plus. f_equal; ring.
Qed.
Definition quarter_points (a b r : R) (p : pt) : Prop := exists i, (i < 11)%nat /\ let t := a + (b - a) / 10 * INR i in p = (r * cos t, r * sin t).
Lemma quarter_arc gap r a q : 0 <= a <= PI / 4 -> 0 < r -> r * sin a = gap / 2 -> quarter_points a (PI / 2 - a) r q ->
  fst q ^ 2 + snd q ^ 2 = r ^ 2 /\ gap / 2 <= fst q /\ gap / 2 <= snd q.
Proof.
  intros A P E (i & I0 & ->). pose proof PI_RGT_0 as PP. pose proof (step_between a (PI / 2 - a) i ltac:(lra) I0) as S. set (t := a + _) in *. clearbody t. cbn zeta. cbn [fst snd].
  assert (S1 : sin a <= sin t) by (apply sin_incr_1; lra). assert (S2 : sin a <= cos t) by (rewrite <- sin_shift; apply sin_incr_1; lra). pose proof (sc2 t) as T2. repeat split; [|rewrite <- E; nra|rewrite <- E; nra].
  replace ((r * cos t) ^ 2 + (r * sin t) ^ 2) with (r ^ 2 * (sin t * sin t + cos t * cos t)) by ring. nra.
Qed.
Lemma quarter_ends gap r a q : 0 <= a <= PI / 4 -> 0 < r -> r * sin a = gap / 2 -> 0 <= fst q -> 0 <= snd q -> fst q ^ 2 + snd q ^ 2 = r ^ 2 -> fst q = gap / 2 \/ snd q = gap / 2 ->
  quarter_points a (PI / 2 - a) r q.
Proof.
  intros A P E X Y N G. pose proof PI_RGT_0 as PP. pose proof (sc2 a) as T2. assert (C0 : 0 <= cos a) by (apply cos_ge_0; lra).
  assert (EQ : forall u v, 0 <= u -> 0 <= v -> u * u = v * v -> u = v) by (intros; nra).
  destruct q as [x y]. cbn [fst snd] in *. destruct G as [G|G].
  - exists 10%nat. split; [lia|]. cbn zeta. replace (a + (PI / 2 - a - a) / 10 * INR 10) with (PI / 2 - a) by (cbn [INR]; field). rewrite cos_shift, sin_shift. f_equal; [lra|]. apply EQ; [lra|nra|]. assert (x = r * sin a) by lra. subst x. nra.
  - exists 0%nat. split; [lia|]. cbn zeta. replace (a + (PI / 2 - a - a) / 10 * INR 0) with a by (cbn [INR]; field). f_equal; [|lra]. apply EQ; [lra|nra|]. assert (y = r * sin a) by lra. subst y. nra.
Qed.
Lemma thermal_drawn p outer inner gap rot : 0 <= gap -> 0 < inner <= outer -> 2 * (gap * gap) <= inner * inner ->
  exists shapes, thermal p outer inner gap rot = Ok shapes /\
  Forall2 (fun k s => exists lines, s = ShowOutline lines /\
    (forall c, In c (corners lines) -> turned p (rot + k) (quarter outer inner gap) c) /\
    forall q, quarter_corner outer inner gap q -> exists c, In c (corners lines) /\ turned p (rot + k) (eq q) c) [0; 90; 180; 270] shapes.
Proof.
  intros G [P1 P2] Q. destruct (asin_div gap inner G P1 Q) as (ia & IA & IB & IC). destruct (asin_div gap outer G ltac:(lra) ltac:(nra)) as (oa & OA & OB & OC).
  unfold thermal. cbn zeta.
  set (points := thermal_points p (inner / 2) (outer / 2) rot ia oa).
  assert (TH : thermal p outer inner gap rot = mapM (fun q => let prev := rotate_point (nth 0 points (0, 0)) q p in outline_of (map (fun x => (prev, rotate_point x q p)) (tl points))) [0; 90; 180; 270]).
  { unfold thermal. cbn zeta. destruct (py_div (gap / 2) (inner / 2)) as [qi|]; cbn [bind] in IA |- *; [|discriminate]. rewrite IA. cbn [bind].
    destruct (py_div (gap / 2) (outer / 2)) as [qo|]; cbn [bind] in OA |- *; [|discriminate]. rewrite OA. reflexivity. }
  change (exists shapes, thermal p outer inner gap rot = Ok shapes /\ Forall2 (fun k s => exists lines, s = ShowOutline lines /\
    (forall c, In c (corners lines) -> turned p (rot + k) (quarter outer inner gap) c) /\
    forall q, quarter_corner outer inner gap q -> exists c, In c (corners lines) /\ turned p (rot + k) (eq q) c) [0; 90; 180; 270] shapes).
  rewrite TH. clear TH.
  set (l := arc_points (ia + radians rot) (PI / 2 - ia + radians rot) (inner / 2) p ++ rev (arc_points (oa + radians rot) (PI / 2 - oa + radians rot) (outer / 2) p)).
  assert (EL : points = l ++ [nth 0 l (0, 0)]) by reflexivity. clearbody points. subst points.
  assert (NL : l <> []) by (unfold l, arc_points; cbn [seq map app]; discriminate).
  assert (IN : forall x, In x l <-> exists a r t, (a = ia /\ r = inner / 2 \/ a = oa /\ r = outer / 2) /\ quarter_points a (PI / 2 - a) r (r * cos t, r * sin t) /\ x = (fst p + cos (t + radians rot) * r, snd p + sin (t + radians rot) * r)).
  { intro x. unfold l. rewrite in_app_iff, <- in_rev, !arc_points_are. split.
    - intros [(i & I0 & ->)|(i & I0 & ->)]; [exists ia, (inner / 2)|exists oa, (outer / 2)]; eexists; (split; [tauto|]); (split; [exists i; split; [exact I0|reflexivity]|reflexivity]).
    - intros (a & r & t & [[-> ->]|[-> ->]] & (i & I0 & E) & ->); [left|right]; exists i; (split; [exact I0|]); cbn zeta in E |- *; injection E as E1 E2; apply Rmult_eq_reg_l in E1; [|lra| |lra]; apply Rmult_eq_reg_l in E2; try lra; rewrite (cos_plus t), (sin_plus t), E1, E2, <- cos_plus, <- sin_plus; reflexivity. }
  clearbody l.
  assert (ONE : forall k, exists lines, outline_of (map (fun x => (rotate_point (nth 0 (l ++ [nth 0 l (0, 0)]) (0, 0)) k p, rotate_point x k p)) (tl (l ++ [nth 0 l (0, 0)]))) = Ok (ShowOutline lines) /\
    (forall c, In c (corners lines) -> turned p (rot + k) (quarter outer inner gap) c) /\
    forall q, quarter_corner outer inner gap q -> exists c, In c (corners lines) /\ turned p (rot + k) (eq q) c).
  { intro k. destruct (closed_shape l (fun x => rotate_point x k p) NL) as (lines & E & C). exists lines. split; [exact E|]. split.
    - intros c H. apply C in H as (x & X & ->). apply IN in X as (a & r & t & AR & QP & ->). rewrite rotate_polar. exists (r * cos t, r * sin t). split; [|reflexivity].
      destruct AR as [[-> ->]|[-> ->]]; apply (quarter_arc gap) in QP; try (lra || assumption); destruct QP as (N & X1 & X2); unfold quarter; rewrite N; repeat split; try assumption; nra.
    - intros q (X & Y & GG & R0). assert (AR : exists a r, (a = ia /\ r = inner / 2 \/ a = oa /\ r = outer / 2) /\ quarter_points a (PI / 2 - a) r q).
      { destruct R0 as [R0|R0]; [exists ia, (inner / 2)|exists oa, (outer / 2)]; (split; [tauto|]); apply (quarter_ends gap); try (lra || assumption). }
      destruct AR as (a & r & AR & QP). pose proof QP as QP'. destruct QP' as (i & I0 & EQ). cbn zeta in EQ. set (t := a + (PI / 2 - a - a) / 10 * INR i) in *.
      exists (rotate_point (fst p + cos (t + radians rot) * r, snd p + sin (t + radians rot) * r) k p). split.
      + apply C. eexists. split; [|reflexivity]. apply IN. exists a, r, t. split; [exact AR|]. split; [rewrite <- EQ; exact QP|reflexivity].
      + rewrite rotate_polar. exists q. split; [reflexivity|]. rewrite EQ. reflexivity. }
  clear - ONE. destruct (ONE 0) as (l0 & E0 & H0), (ONE 90) as (l1 & E1 & H1), (ONE 180) as (l2 & E2 & H2), (ONE 270) as (l3 & E3 & H3).
  exists [ShowOutline l0; ShowOutline l1; ShowOutline l2; ShowOutline l3]. split.
  - cbn [mapM]. cbn zeta. rewrite E0, E1, E2, E3. reflexivity.
  - repeat (constructor; [eexists; split; [reflexivity|assumption]|]). constructor.
Qed.

(** ** From the statement to the shape *)
Lemma real_pos q : (0 < q)%Qc -> 0 < real q.
Proof. intro P. unfold real. replace 0 with (Q2R 0) by (unfold Q2R; cbn; field). apply Qlt_Rlt. exact P. Qed.
Lemma real_0 : real 0%Qc = 0.
Proof. unfold real, Q2R. cbn. field. Qed.
Lemma real_nonneg q : (0 <= q)%Qc -> 0 <= real q.
Proof. intro P. unfold real. replace 0 with (Q2R 0) by (unfold Q2R; cbn; field). apply Qle_Rle. exact P. Qed.
Lemma real_inj p q : real p = real q -> p = q.
Proof. intro E. apply Qc_is_canon. now apply eqR_Qeq. Qed.
Lemma real_pt_inj p q : real_pt p = real_pt q -> p = q.
Proof. destruct p, q. unfold real_pt. cbn [fst snd]. intro E. injection E as E1 E2. apply real_inj in E1, E2. now subst. Qed.
Lemma real_pt_0 : real_pt (0, 0)%Qc = origin.
Proof. unfold real_pt, origin. cbn [fst snd]. now rewrite real_0. Qed.
Lemma unmoved (c : Qc * Qc) r : c = (0, 0)%Qc \/ r = 0%Qc -> real_pt c = origin \/ real r = 0.
Proof. intros [->| ->]; [left; apply real_pt_0|right; apply real_0]. Qed.
Lemma single_ok on r x : r = Ok x -> single on r = Ok [(on, x)].
Proof. now intros ->. Qed.
Lemma real_last (l : list (Qc * Qc)) : l <> [] -> last (map real_pt l) (0, 0) = real_pt (last l (0, 0)%Qc).
Proof. intro N. now apply last_map_any. Qed.
Lemma unmoved_turned p rot k (s : shape) c : p = origin \/ rot = 0 -> turned p (rot + k) s c -> turned origin rot (moved p (turned origin k s)) c.
Proof.
  intros O (q & Q & ->). unfold moved.
  set (a := k * PI / 180). set (x := cos a * fst q - sin a * snd q). set (y := sin a * fst q + cos a * snd q).
  exists (fst p + x, snd p + y). cbn [fst snd]. split.
  - exists q. split; [exact Q|]. unfold origin. cbn [fst snd]. unfold x, y, a. f_equal; ring.
  - replace ((rot + k) * PI / 180) with (rot * PI / 180 + a) by (unfold a; field). unfold x, y. rewrite cos_plus, sin_plus. unfold origin. destruct O as [->| ->].
    + unfold origin. cbn [fst snd]. f_equal; ring.
    + replace (0 * PI / 180) with 0 by field. rewrite cos_0, sin_0. cbn [fst snd]. f_equal; ring.
Qed.
Lemma real_mult p q : real (p * q)%Qc = real p * real q.
Proof. unfold real. rewrite <- Q2R_mult. apply Qeq_eqR. apply Qred_correct. Qed.
Lemma real_plus p q : real (p + q)%Qc = real p + real q.
Proof. unfold real. rewrite <- Q2R_plus. apply Qeq_eqR. apply Qred_correct. Qed.
Lemma real_le p q : (p <= q)%Qc -> real p <= real q.
Proof. apply Qle_Rle. Qed.
Lemma real_lt p q : (p < q)%Qc -> real p < real q.
Proof. apply Qlt_Rlt. Qed.
Lemma real_Z z : real (Q2Qc (inject_Z z)) = IZR z.
Proof. unfold real. rewrite <- (Qeq_eqR (inject_Z z)). - unfold Q2R, inject_Z. cbn. field. - symmetry. apply Qred_correct. Qed.
Lemma thermal_own : forall p outer inner gap r, (0 <= gap)%Qc -> (0 < inner)%Qc -> (inner <= outer)%Qc -> (gap * gap + gap * gap <= inner * inner)%Qc ->
  exists shapes, to_primitive (AThermal p outer inner gap r) = Ok (map (pair true) shapes) /\
  Forall2 (fun k s => exists lines, s = ShowOutline lines /\
    (forall c, In c (corners lines) -> turned (real_pt p) (real r + k) (quarter (real outer) (real inner) (real gap)) c) /\
    forall q, quarter_corner (real outer) (real inner) (real gap) q -> exists c, In c (corners lines) /\ turned (real_pt p) (real r + k) (eq q) c) [0; 90; 180; 270] shapes.
Proof.
  intros p outer inner gap r G P1 P2 Q. destruct (thermal_drawn (real_pt p) (real outer) (real inner) (real gap) (real r)) as (shapes & E & F).
  - now apply real_nonneg.
  - split; [now apply real_pos|now apply real_le].
  - apply real_le in Q. rewrite real_plus, !real_mult in Q. lra.
  - exists shapes. split; [|exact F]. cbn [to_primitive]. rewrite E. reflexivity.
Qed.
Lemma Forall2_same {A B} (P : A -> B -> Prop) l m : Forall2 P l m -> List.length l = List.length m.
Proof. induction 1; cbn; auto. Qed.
Lemma Forall2_imp {A B} (P Q : A -> B -> Prop) l m : (forall a b, P a b -> Q a b) -> Forall2 P l m -> Forall2 Q l m.
Proof. intro H. induction 1; constructor; auto. Qed.
Lemma thermal_right : forall p outer inner gap r, (0 <= gap)%Qc -> (0 < inner)%Qc -> (inner <= outer)%Qc -> (gap * gap + gap * gap <= inner * inner)%Qc -> p = (0, 0)%Qc \/ r = 0%Qc ->
  exists shapes, to_primitive (AThermal p outer inner gap r) = Ok (map (pair true) shapes) /\
  Forall2 (fun k s => exists lines, s = ShowOutline lines /\
    (forall c, In c (corners lines) -> turned origin (real r) (moved (real_pt p) (turned origin k (quarter (real outer) (real inner) (real gap)))) c) /\
    forall q, quarter_corner (real outer) (real inner) (real gap) q -> exists c, In c (corners lines) /\ turned origin (real r) (moved (real_pt p) (turned origin k (eq q))) c) [0; 90; 180; 270] shapes.
Proof.
  intros p outer inner gap r G P1 P2 Q O. apply unmoved in O. destruct (thermal_own p outer inner gap r G P1 P2 Q) as (shapes & E & F). exists shapes. split; [exact E|].
  revert F. apply Forall2_imp. intros k s (lines & S & A & B). exists lines. split; [exact S|]. split.
  - intros c C. apply unmoved_turned; auto.
  - intros q QC. destruct (B q QC) as (c & C & D). exists c. split; [exact C|]. now apply unmoved_turned.
Qed.
Lemma thermal_fails :
  (forall p outer gap r, to_primitive (AThermal p outer 0%Qc gap r) = Err ZeroDivisionError) /\
  (forall p outer inner gap r, (0 < inner)%Qc -> (inner < gap)%Qc -> to_primitive (AThermal p outer inner gap r) = Err ValueError).
Proof.
  split; intros; cbn [to_primitive]; unfold thermal; cbn zeta; unfold py_div, HullModel.eqb.
  - rewrite real_0. destruct (Req_EM_T (0 / 2) 0) as [_|N]; [reflexivity|]. exfalso. apply N. field.
  - apply real_pos in H. apply real_lt in H0. destruct (Req_EM_T (real inner / 2) 0) as [?|_]; [lra|]. cbn [bind].
    assert (X : 1 < real gap / 2 / (real inner / 2)). { apply Rmult_lt_reg_r with (real inner / 2); [lra|]. replace (real gap / 2 / (real inner / 2) * (real inner / 2)) with (real gap / 2) by (field; lra). lra. }
    unfold py_asin. replace (GeomModel.leb (real gap / 2 / (real inner / 2)) 1) with false; [rewrite andb_false_r; reflexivity|]. symmetry. unfold GeomModel.leb. destruct (Rle_dec _ _); [lra|reflexivity].
Qed.
Lemma mapM_each {A B} (f : A -> res B) l m : mapM f l = Ok m -> Forall2 (fun a b => f a = Ok b) l m.
Proof.
  revert m. induction l as [|a l IH]; intros m E; cbn [mapM] in E; [injection E as <-; constructor|].
  destruct (f a) as [b|] eqn:F; cbn [bind] in E; [|discriminate]. destruct (mapM f l) as [m'|]; cbn [bind] in E; [|discriminate]. injection E as <-. constructor; auto.
Qed.
Lemma group_each : forall prims shapes, group_shapes prims = Ok shapes ->
  exists each, Forall2 (fun p l => to_primitive p = Ok l) prims each /\ shapes = List.concat each.
Proof.
  intros prims shapes E. unfold group_shapes in E. destruct (mapM to_primitive prims) as [m|] eqn:M; cbn [bind] in E; [|discriminate]. injection E as <-. exists m. split; [now apply mapM_each|reflexivity].
Qed.

(** ** Off the origin *)
Definition off : Qc * Qc := (Q2Qc 10, 0%Qc).
Definition right_angle : Qc := Q2Qc 90.
Lemma off_is : real_pt off = (10, 0).
Proof. unfold real_pt, off. cbn [fst snd]. f_equal; unfold real, Q2R; cbn; field. Qed.
Lemma right_is : real right_angle = 90.
Proof. unfold real, right_angle, Q2R. cbn. field. Qed.
Lemma real_1 : real 1%Qc = 1. Proof. unfold real, Q2R. cbn. field. Qed.
Lemma real_2 : real (Q2Qc 2) = 2. Proof. unfold real, Q2R. cbn. field. Qed.
Lemma turned_90 c s p : turned c 90 s p -> exists q, s q /\ p = (fst c - snd q, snd c + fst q).
Proof.
  intros (q & Q & E). exists q. split; [exact Q|]. rewrite E. replace (90 * PI / 180) with (PI / 2) by field. rewrite cos_PI2, sin_PI2. f_equal; ring.
Qed.
Lemma center_line_wrong : exists on w h c r lines p, (0 < w)%Qc /\ (0 < h)%Qc /\
  to_primitive (ACenter on w h c r) = Ok [(on, ShowOutline lines)] /\
  left_of_all (corners lines) p /\ ~ center_line_area (real_pt c) (real w) (real h) (real r) p.
Proof.
  destruct (center_line_drawn (real_pt off) (real 1%Qc) (real 1%Qc) (real right_angle)) as (lines & E & L); try (rewrite real_1; lra).
  exists true, 1%Qc, 1%Qc, off, right_angle, lines, (10, 0). split; [reflexivity|]. split; [reflexivity|]. split; [apply single_ok, E|]. split.
  - apply L. rewrite off_is, real_1, right_is. exists (0, 0). split; [unfold oblong; cbn [fst snd]; lra|]. cbn [fst snd]. f_equal; ring.
  - unfold center_line_area. rewrite off_is, real_1, right_is. intro A. apply turned_90 in A as (q & M & Q). unfold moved, oblong, origin in *. cbn [fst snd] in *. injection Q as Q1 Q2. lra.
Qed.
Lemma cos_sin_bound t : -1 <= cos t <= 1 /\ -1 <= sin t <= 1.
Proof. split; [apply COS_bound|apply SIN_bound]. Qed.
Lemma polygon_wrong : exists on n p d r c n' radius rotation, (3 <= n)%Z /\
  to_primitive (APolygon on n p d r) = Ok [(on, ShowPolygon c n' radius rotation)] /\
  forall i, (i < Z.to_nat n)%nat -> forall j, ~ turn (real r) (polygon_corner (real_pt p) n (real d) i) (polygon_vertex c (Z.to_nat n') radius rotation j).
Proof.
  exists true, 4%Z, off, (Q2Qc 2), right_angle. do 4 eexists. split; [lia|]. split; [reflexivity|]. intros i _ j. rewrite off_is, right_is, real_2. unfold turn, polygon_corner, polygon_vertex. cbn zeta. cbn [fst snd].
  replace (90 * PI / 180) with (PI / 2) by field. rewrite cos_PI2, sin_PI2. intro E. apply (f_equal fst) in E. cbn [fst] in E.
  pose proof (cos_sin_bound (2 * PI * INR i / 4)). rewrite rotate_is in E. cbn [fst snd] in E. match type of E with ?L = _ => match L with context[cos ?t] => pose proof (cos_sin_bound t) end end. lra.
Qed.
Lemma thermal_wrong : exists p outer inner gap r shapes, (0 <= gap)%Qc /\ (0 < inner)%Qc /\ (inner <= outer)%Qc /\ (gap * gap + gap * gap <= inner * inner)%Qc /\
  to_primitive (AThermal p outer inner gap r) = Ok (map (pair true) shapes) /\ List.length shapes = 4%nat /\
  forall lines c, In (ShowOutline lines) shapes -> In c (corners lines) -> forall k, ~ turned origin (real r) (moved (real_pt p) (turned origin k (quarter (real outer) (real inner) (real gap)))) c.
Proof.
  destruct (thermal_own off (Q2Qc 2) (Q2Qc 2) 1%Qc right_angle ltac:(discriminate) ltac:(reflexivity) ltac:(discriminate) ltac:(discriminate)) as (shapes & E & F).
  exists off, (Q2Qc 2), (Q2Qc 2), 1%Qc, right_angle, shapes. repeat (split; [first [discriminate|reflexivity]|]). split; [exact E|]. split; [rewrite <- (Forall2_same _ _ _ F); reflexivity|].
  intros lines c S C k A. rewrite off_is, real_1, real_2, right_is in *.
  assert (B : exists k, turned (10, 0) (90 + k) (quarter 2 2 1) c).
  { clear - F S C. induction F as [|k s l m (lines' & -> & H & _) F IH]; [destruct S|]. destruct S as [S|S]; [|auto]. injection S as ->. exists k. auto. }
  destruct B as (k' & (q & (N & _) & ->)). apply turned_90 in A as (x & X & EX). unfold moved in X. destruct X as (y & (M & _) & EY). cbn [fst snd] in *.
  assert (B : forall t u v, u ^ 2 + v ^ 2 <= (2 / 2) ^ 2 -> -1 <= cos t * u - sin t * v <= 1 /\ -1 <= sin t * u + cos t * v <= 1).
  { intros t u v Q. pose proof (sc2 t) as T2. set (C0 := cos t) in *. set (S0 := sin t) in *. clearbody C0 S0.
    assert ((C0 * u - S0 * v) ^ 2 + (S0 * u + C0 * v) ^ 2 = u ^ 2 + v ^ 2) by (replace (u ^ 2 + v ^ 2) with ((S0 * S0 + C0 * C0) * (u ^ 2 + v ^ 2)) by (rewrite T2; ring); ring).
    set (X := C0 * u - S0 * v) in *. set (Y := S0 * u + C0 * v) in *. clearbody X Y. assert (X * X + Y * Y <= 1) by lra. split; split; nra. }
  unfold origin in *. cbn [fst snd] in *. injection EX as E1 E2. injection EY as E3 E4.
  pose proof (B ((90 + k') * PI / 180) (fst q) (snd q) ltac:(lra)). pose proof (B (k * PI / 180) (fst y) (snd y) ltac:(lra)). lra.
Qed.
